(** * C104: --init-tals and --init-as0-tals *)
From Coq Require Import String.
From Verif Require Import Base BaseLemmas CString PathBuilder Http HttpSpec HttpProofs HttpProps Init InitSpec InitProofs.
Notation length := List.length.
Open Scope list_scope.
Open Scope Z_scope.

Lemma wanted_names a b : (forall x, In x (wanted a b) -> ~ In 0 (cstr (snd x)) /\ cstr (snd x) <> []) /\ NoDup (map (fun x => cstr (snd x)) (wanted a b)).
Proof.
  split.
  - assert (F : Forall (fun x => forallb (fun c => negb (c =? 0)) (cstr (snd x)) = true /\ cstr (snd x) <> []) (core ++ as0)).
    { repeat (apply Forall_cons; [split; [vm_compute; reflexivity|vm_compute; discriminate]|]). apply Forall_nil. }
    intros x Hx. rewrite Forall_forall in F. assert (I : In x (core ++ as0)) by (apply in_or_app; unfold wanted in Hx; apply in_app_or in Hx; destruct a, b; cbn [In] in Hx; tauto). destruct (F x I) as (F1 & F2).
    split; [|exact F2]. intros K. rewrite forallb_forall in F1. specialize (F1 0 K). discriminate F1.
  - assert (N : forall l : list (list Z), (fix nd (l : list (list Z)) := match l with [] => true | x :: t => negb (existsb (list_eqb Z.eqb x) t) && nd t end) l = true -> NoDup l).
    { induction l as [|x l IH]; intros H; [constructor|]. apply andb_prop in H. destruct H as (H1 & H2). constructor; [|apply IH; exact H2]. intros K. apply negb_true_iff in H1.
      assert (E : existsb (list_eqb Z.eqb x) l = true) by (apply existsb_exists; exists x; split; [exact K|]; apply (list_eqb_spec Z.eqb Z.eqb_eq); reflexivity). congruence. }
    apply N. destruct a, b; vm_compute; reflexivity.
Qed.

(** ** For every TAL directory, whatever is in it, and whatever the servers answer: the TALs that were asked for (five registries', two AS0) are requested in order, as
    far as the first that fails; each success is a file of the directory, with the document; the user is told of each, and only, success, and of the failure; the
    status is 0 exactly if there was no failure; nothing but the requested TALs' files ever changes. *)
Theorem C104_init_tals : forall J max tal srv tals tal0s f,
  0 <= max -> (forall u, sane (srv u)) -> tal <> [] -> ~ In 0 tal ->
  exists status r, init_tals J max tal srv tals tal0s f = Ok (status, r) /\
  exists done rest, wanted tals tal0s = done ++ rest /\
    (forall x, In x done -> short (file tal x) /\ success max (srv (url x)) /\ arrived (srv (url x)) (f (file tal x)) (r_fs r (file tal x))) /\
    (forall g n, In g (r_fs r :: r_trace r) -> g n <> f n -> exists x, In x (done ++ firstn 1 rest) /\ n = file tal x) /\
    match rest with
    | [] => status = 0 /\ r_requests r = map url done /\ r_said r = map (fun x => Fetched (file tal x)) done
    | x :: _ =>
        ~ short (file tal x) /\ status = 28 /\ r_requests r = map url done /\ r_said r = map (fun x => Fetched (file tal x)) done ++ [NoPath 28] /\
          r_fs r (file tal x) = f (file tal x) \/
        short (file tal x) /\ ~ success max (srv (url x)) /\ r_requests r = map url done ++ [url x] /\
          exists errno, In (errno, status) failures /\ r_said r = map (fun x => Fetched (file tal x)) done ++ [NotFetched (file tal x) errno]
    end.
Proof.
  intros J max tal srv a b f Hm Sn T0 TN. rewrite (init_all J max tal srv a b f). destruct (wanted_names a b) as (W1 & W2).
  destruct (all_spec J max tal srv Hm Sn T0 TN (wanted a b) W1 W2 {| r_fs := f; r_trace := []; r_requests := []; r_said := [] |}) as (e & r & -> & done & rest & Ew & F & G & (t & T1 & T2) & M).
  cbn [bind r_fs r_trace r_requests r_said app] in *. exists (Z.land e 255), r. split; [reflexivity|]. exists done, rest. split; [exact Ew|].
  split; [intros x Hx; rewrite Forall_forall in F; exact (F x Hx)|]. split.
  { intros g n Hg Hn. assert (Wg : within tal (done ++ firstn 1 rest) f g) by (destruct Hg as [<-|Hg]; [exact G|rewrite T1 in Hg; rewrite Forall_forall in T2; apply T2; exact Hg]).
    destruct (existsb (fun x => path_eqb n (file tal x)) (done ++ firstn 1 rest)) eqn:Ex.
    - apply existsb_exists in Ex. destruct Ex as (x & Hx & K). exists x. split; [exact Hx|]. destruct (path_eqb_spec n (file tal x)); [assumption|discriminate K].
    - exfalso. apply Hn. apply Wg. intros x Hx K. rewrite <- not_true_iff_false in Ex. apply Ex. apply existsb_exists. exists x. split; [exact Hx|]. rewrite K. destruct (path_eqb_spec (file tal x) (file tal x)); congruence. }
  destruct rest as [|x rest].
  - destruct M as (-> & M2 & M3). auto.
  - destruct M as (_ & [(M1 & -> & M3 & M4 & M5)|(M1 & M2 & M3 & _ & n & M5 & M6)]); [left; auto|right]. repeat (split; [assumption|]). exists n. auto.
Qed.
Print Assumptions C104_init_tals.

(** ** In particular: status 0 if and only if every TAL asked for was a success; then all of their files are there (unless a server had no document). *)
Corollary C104_all_or_told : forall J max tal srv tals tal0s f status r,
  0 <= max -> (forall u, sane (srv u)) -> tal <> [] -> ~ In 0 tal -> init_tals J max tal srv tals tal0s f = Ok (status, r) ->
  (status = 0 <-> forall x, In x (wanted tals tal0s) -> short (file tal x) /\ success max (srv (url x))) /\
  (status = 0 -> forall x, In x (wanted tals tal0s) -> body (srv (url x)) <> [] -> flushed (srv (url x)) -> r_fs r (file tal x) = Some (body (srv (url x)))).
Proof.
  intros J max tal srv a b f status r Hm Sn T0 TN E. destruct (C104_init_tals J max tal srv a b f Hm Sn T0 TN) as (st & r' & E' & done & rest & W & D & _ & M). rewrite E in E'. injection E' as <- <-. rewrite W.
  assert (Q : status = 0 -> rest = []). { intros ->. destruct rest as [|x rest]; [reflexivity|]. destruct M as [(_ & K & _)|(_ & _ & _ & n & K & _)]; [discriminate K|]. cbn in K. decompose [or] K; try (congruence); contradiction. }
  split; [split|].
  - intros Z0. rewrite (Q Z0), app_nil_r. intros x Hx. destruct (D x Hx) as (D1 & D2 & _). auto.
  - intros H. destruct rest as [|x rest]; [tauto|]. destruct (H x ltac:(apply in_or_app; right; left; reflexivity)) as (H1 & H2). destruct M as [(K & _)|(_ & K & _)]; contradiction.
  - intros Z0 x Hx Hb Hf. rewrite (Q Z0), app_nil_r in Hx. destruct (D x Hx) as (_ & _ & (D3 & _)). rewrite (D3 Hb). f_equal. apply firstn_all2. exact Hf.
Qed.
Print Assumptions C104_all_or_told.

Definition etc : path := cstr "/etc/fort/tal".
Definition tals_srv (u : list Z) : attempt := if path_eqb u (cstr "https://www.lacnic.net/innovaportal/file/4983/1/lacnic.tal") then answer 404 [] else answer 200 u.
Example C104_example : (forall u, sane (tals_srv u)) /\
  (exists r, init_tals 0 1000 etc tals_srv true true (fun _ => None) = Ok (234, r) /\ length (r_requests r) = 4%nat /\ length (r_said r) = 4%nat /\
    r_fs r (cstr "/etc/fort/tal/arin.tal") = Some (cstr "https://www.arin.net/resources/manage/rpki/arin.tal") /\ r_fs r (cstr "/etc/fort/tal/lacnic.tal") = None) /\
  (exists r, init_tals 0 1000 etc (answer 200) true true (fun _ => None) = Ok (0, r) /\ length (r_requests r) = 7%nat /\ r_fs r (cstr "/etc/fort/tal/lacnic-as0.tal") <> None) /\
  (exists r, init_tals 0 1000 (repeat 97 4090) (answer 200) false true (fun _ => None) = Ok (28, r) /\ r_requests r = [] /\ r_said r = [NoPath 28]).
Proof.
  split; [intros u; unfold tals_srv; destruct (path_eqb u _); apply answer_sane; discriminate|]. split; [|split]; eexists; (split; [vm_compute; reflexivity|]); vm_compute; repeat split; auto. discriminate.
Qed.

(** ** False: TALs are only replaced by TALs.  If it fails (here, there's no network), the TAL that was there is deleted.  (src/http/http.c:351-352; http_download() has a temporary file
    for this, http_direct_download() doesn't.) *)
Theorem C104_deleted_refuted : exists srv, (forall u, sane (srv u)) /\ exists r,
  init_tals 0 1000 etc srv true false (fun n => if path_eqb n (cstr "/etc/fort/tal/afrinic.tal") then Some (cstr "the TAL") else None) = Ok (11, r) /\
  r_fs r (cstr "/etc/fort/tal/afrinic.tal") = None.
Proof. exists (fun _ => no_answer 6 0). split; [intros u; apply no_answer_sane|]. eexists. split; vm_compute; reflexivity. Qed.
Print Assumptions C104_deleted_refuted.

(** ** False: each TAL that can be had is downloaded.  One failure, and the rest isn't requested. *)
Theorem C104_rest_refuted : exists srv, (forall u, sane (srv u)) /\ exists r,
  init_tals 0 1000 etc srv true true (fun _ => None) = Ok (234, r) /\ length (r_requests r) = 1%nat /\
  (forall x, In x (wanted true true) -> fst x <> "https://rpki.afrinic.net/tal/afrinic.tal"%string -> success 1000 (srv (url x))) /\ forall n, r_fs r n = None.
Proof.
  exists (fun u => if path_eqb u (cstr "https://rpki.afrinic.net/tal/afrinic.tal") then answer 404 [] else answer 200 [35]).
  split; [intros u; destruct (path_eqb u _); apply answer_sane; discriminate|]. eexists. split; [vm_compute; reflexivity|]. split; [reflexivity|]. split.
  - intros x Hx Nx. assert (E : path_eqb (url x) (cstr "https://rpki.afrinic.net/tal/afrinic.tal") = false).
    { cbn in Hx. decompose [or] Hx; subst; try contradiction; try (vm_compute; reflexivity). }
    rewrite E. unfold success, answer, body. cbn. repeat split; auto; try lia; try discriminate. intros [|i] c K; [injection K as <-; reflexivity|destruct i; discriminate K].
  - intros n. cbn [r_fs]. unfold put. match goal with |- context [if ?b then _ else _] => destruct b end; reflexivity.
Qed.
Print Assumptions C104_rest_refuted.

(** ** False: "Successfully fetched" means that there is a file.  A server may answer without a document. *)
Theorem C104_nothing_refuted : exists srv, (forall u, sane (srv u)) /\ exists r,
  init_tals 0 1000 etc srv false true (fun _ => None) = Ok (0, r) /\ In (Fetched (cstr "/etc/fort/tal/apnic-as0.tal")) (r_said r) /\ forall n, r_fs r n = None.
Proof. exists (fun _ => no_answer 0 200). split; [intros u; apply no_answer_sane|]. eexists. split; [vm_compute; reflexivity|]. split; [left; reflexivity|]. reflexivity. Qed.
Print Assumptions C104_nothing_refuted.
