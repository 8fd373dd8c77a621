(** * C92: the RTR server listens exactly where it's told to *)
From Coq Require Import String.
From Verif Require Import Base BaseLemmas CString CLib Tal Text TextSpec TextProps Listen ListenSpec.
Notation length := List.length.

Lemma strrchr_spec c s : match strrchr c s with None => ~ In c s | Some t => exists d r, s = d ++ c :: r /\ t = c :: r /\ ~ In c r end.
Proof.
  induction s as [|x s IH]; cbn [strrchr]; [intros []|]. destruct (strrchr c s) as [t|].
  - destruct IH as (d & r & -> & -> & N). exists (x :: d), r. auto.
  - destruct (Z.eqb_spec x c) as [->|N]; [exists [], s; auto|intros [E|I]; [congruence|auto]].
Qed.
Lemma means_unique port e a p a' p' : means port e a p -> means port e a' p' -> a = a' /\ p = p'.
Proof.
  assert (U : forall (d r d' r' : list Z), d ++ 35 :: r = d' ++ 35 :: r' -> ~ In 35 r -> ~ In 35 r' -> d = d' /\ r = r').
  { induction d as [|x d IH]; intros r d' r' E N N'; destruct d' as [|y d']; cbn [app] in E.
    - injection E as E2. auto.
    - injection E as E1 E2. subst. exfalso. apply N. apply in_app_iff. right. left. auto.
    - injection E as E1 E2. subst. exfalso. apply N'. apply in_app_iff. right. left. auto.
    - injection E as E1 E2. destruct (IH _ _ _ E2 N N'). subst. auto. }
  intros [A|x y E N NE] [B|x' y' E' N' NE']; auto.
  - exfalso. apply A. rewrite E'. apply in_app_iff. right. left. auto.
  - exfalso. apply B. rewrite E. apply in_app_iff. right. left. auto.
  - rewrite E in E'. cbn [app] in E'. apply (U x y x' y'); auto.
Qed.
Lemma parse_spec port e : match parse_address port (Some e) with
  | Ok (h, s) => exists a, h = Some a /\ means port e a s
  | Err _ => forall a p, ~ means port e a p
  | UB => False end.
Proof.
  unfold parse_address. pose proof (strrchr_spec 35 e) as S. destruct (strrchr 35 e) as [t|]; [|exists e; split; auto; constructor; auto].
  destruct S as (d&r&E&->&N). cbn [tl]. destruct r as [|x r].
  - intros a p [A|a' p' E' N' NE]; [apply A; rewrite E; apply in_app_iff; right; left; auto|]. rewrite E in E'. cbn [app] in E'.
    assert (L : last (d ++ [35]) 0 = 35) by apply last_last. rewrite E' in L. destruct (exists_last NE) as (q&y&->). change (a' ++ 35 :: q ++ [y]) with (a' ++ (35 :: q) ++ [y]) in L. rewrite app_assoc, last_last in L. apply N'. apply in_app_iff. right. left. auto.
  - exists d. rewrite E. rewrite app_length. cbn [length]. replace (length d + S (S (length r)) - S (S (length r)))%nat with (length d) by lia. rewrite firstn_app, Nat.sub_diag, firstn_all, firstn_O, app_nil_r.
    split; auto. eapply means_both; eauto. discriminate.
Qed.

Lemma NoDup_app_one {A} (l : list A) x : NoDup l -> ~ In x l -> NoDup (l ++ [x]).
Proof. intros N I. induction N as [|y l NY N IH]; cbn [app]; [constructor; auto; constructor|]. constructor; [|apply IH; intros H; apply I; right; auto]. intros H. apply in_app_iff in H. destruct H as [H|[H|[]]]; [auto|subst; apply I; left; auto]. Qed.
Definition full (fd backlog : Z) (a : address) : sock := {| k_fd := fd; k_family := a_family a; k_nonblock := true; k_reuse := true; k_bound := Some a; k_backlog := Some backlog |}.

Section Proofs.
  Variable o : os.
  Hypothesis S : sane_os o.

  Lemma change_fresh fd f l s : ~ In fd (map k_fd l) -> k_fd s = fd -> change fd f (l ++ [s]) = l ++ [f s].
  Proof.
    intros N E. unfold change. rewrite map_app. cbn [map]. rewrite E, Z.eqb_refl. f_equal. rewrite <- (map_id l) at 2. apply map_ext_in. intros x I.
    destruct (Z.eqb_spec (k_fd x) fd) as [E'|]; auto. exfalso. apply N. rewrite <- E'. apply in_map. auto.
  Qed.
  Lemma close_fresh fd l s c : ~ In fd (map k_fd l) -> k_fd s = fd -> open (sys_close fd {| open := l ++ [s]; clock := c |}) = l.
  Proof.
    intros N E. cbn [sys_close open]. rewrite filter_app. cbn [filter]. rewrite E, Z.eqb_refl. cbn [negb]. rewrite app_nil_r.
    assert (F : forall l, ~ In fd (map k_fd l) -> filter (fun s => negb (k_fd s =? fd)) l = l).
    { clear. induction l as [|x l IH]; cbn [map filter In]; intros N; auto. destruct (Z.eqb_spec (k_fd x) fd) as [E|]; [exfalso; apply N; auto|]. cbn [negb]. f_equal. apply IH. tauto. }
    auto.
  Qed.

  (** One call on the last socket. *)
  Lemma call_last fd f l s c : ~ In fd (map k_fd l) -> k_fd s = fd ->
    call o fd f {| open := l ++ [s]; clock := c |} = if o_fails o c =? 0 then (0, {| open := l ++ [f s]; clock := Datatypes.S c |}) else (o_fails o c, {| open := l ++ [s]; clock := Datatypes.S c |}).
  Proof. intros N E. unfold call. cbn [clock open]. destruct (o_fails o c =? 0); [|reflexivity]. rewrite change_fresh by auto. reflexivity. Qed.

  Lemma create_loop_spec backlog ais : forall st servers e st' servers', create_loop o backlog ais st servers = (e, st', servers') ->
    exists socks, open st' = open st ++ socks /\ servers' = servers ++ map k_fd socks /\ Forall (fun s => 0 <= k_fd s) socks /\
      (NoDup (map k_fd (open st)) -> NoDup (map k_fd (open st'))) /\ (clock st <= clock st')%nat /\
      ((e = 0 /\ Forall2 (listens backlog) ais socks) \/ (e <> 0 /\ exists n, (clock st <= n < clock st')%nat /\ o_fails o n = e)).
  Proof.
    induction ais as [|ai ais IH]; intros st servers e st' servers' H.
    - cbn in H. injection H as <- <- <-. exists []. rewrite !app_nil_r. repeat split; auto.
    - cbn [create_loop] in H. unfold sys_socket in H. destruct st as [l c]. cbn [open clock] in *.
      destruct (proj1 S (map k_fd l)) as [NF POS]. set (fd := o_fresh o (map k_fd l)) in *.
      assert (FAIL : forall e0 c0, e0 <> 0 -> (c <= c0)%nat -> o_fails o c0 = e0 -> forall st1 s1, k_fd s1 = fd -> st1 = {| open := l ++ [s1]; clock := Datatypes.S c0 |} ->
        (e0, (if negb (fd =? -1) then sys_close fd st1 else st1), servers) = (e, st', servers') ->
        exists socks, open st' = l ++ socks /\ servers' = servers ++ map k_fd socks /\ Forall (fun s => 0 <= k_fd s) socks /\
          (NoDup (map k_fd l) -> NoDup (map k_fd (open st'))) /\ (c <= clock st')%nat /\
          ((e = 0 /\ Forall2 (listens backlog) (ai :: ais) socks) \/ (e <> 0 /\ exists n, (c <= n < clock st')%nat /\ o_fails o n = e))).
      { intros e0 c0 N0 LE F st1 s1 K1 -> E. destruct (Z.eqb_spec fd (-1)); [lia|]. cbn [negb] in E. injection E as <- <- <-. exists []. rewrite close_fresh by auto. rewrite !app_nil_r.
        split; auto. split; auto. split; auto. split; auto. cbn [sys_close clock]. split; [lia|]. right. split; auto. exists c0. split; [lia|auto]. }
      destruct (Z.eqb_spec (o_fails o c) 0) as [E0|E0]; cbn [negb] in H.
      2:{ destruct (Z.eqb_spec (o_fails o c) 0); [congruence|]. cbn [negb] in H. change (-1 =? -1) with true in H. cbn [negb] in H. injection H as <- <- <-. exists []. rewrite !app_nil_r. cbn [open clock]. repeat split; auto.
          right. split; auto. exists c. split; [lia|auto]. }
      change (0 =? 0) with true in H. cbn [negb] in H. unfold set_nonblock in H.
      do 5 (rewrite call_last in H by auto; match type of H with context [o_fails o ?n =? 0] => let E := fresh "E" in
        destruct (Z.eq_dec (o_fails o n) 0) as [E|E];
        [rewrite (proj2 (Z.eqb_eq _ _) E) in H; cbn [negb] in H; change (0 =? 0) with true in H; cbn [negb] in H
        |pose proof (proj2 (Z.eqb_neq _ _) E) as E'; rewrite E' in H; cbn [negb] in H; rewrite ?E' in H; cbn [negb] in H; rewrite ?E' in H; cbn [negb] in H;
         refine (FAIL (o_fails o n) n E _ eq_refl _ _ _ eq_refl H); [lia|reflexivity]] end).
      cbn [get_flags with_nonblock with_reuse with_bound with_backlog k_fd k_family k_nonblock k_reuse k_bound k_backlog] in H.
      apply IH in H. cbn [open clock] in H. destruct H as (socks&O&SV&FA&ND&CL&R).
      exists (full fd backlog ai :: socks). rewrite O, SV, <- !app_assoc. cbn [app map k_fd full].
      split; auto. split; auto. split; [constructor; auto|]. split.
      { intros N. rewrite O in ND. rewrite <- app_assoc in ND. cbn [app] in ND. apply ND. rewrite map_app. cbn [map k_fd]. apply NoDup_app_one; auto. }
      split; [lia|]. destruct R as [[-> F2]|(NE&n&LE&FN)]; [left|right].
      + split; auto. constructor; auto. repeat split.
      + split; auto. exists n. split; [lia|auto].
  Qed.

  (** The outcome of all these functions, for the addresses [ais] if it's successful. *)
  Definition result (backlog : Z) (P : list address -> Prop) (st : kernel) (servers : list Z) (r : Z * kernel * list Z) : Prop :=
    let '(e, st', servers') := r in
    exists socks, open st' = open st ++ socks /\ servers' = servers ++ map k_fd socks /\ Forall (fun s => 0 <= k_fd s) socks /\
      (NoDup (map k_fd (open st)) -> NoDup (map k_fd (open st'))) /\ (e = 0 -> exists ais, P ais /\ Forall2 (listens backlog) ais socks).
  Lemma fd_spec port backlog input st servers :
    result backlog (fun l => match input with None => o_resolve o None port = inr l | Some e => exists a p, means port e a p /\ o_resolve o (Some a) p = inr l end) st servers
      (init_server_fd o port backlog input st servers).
  Proof.
    assert (N : forall e P, e <> 0 -> result backlog P st servers (e, st, servers)).
    { intros e P NE. exists []. rewrite !app_nil_r. repeat split; auto. intros; congruence. }
    unfold init_server_fd. assert (C : forall h p (P : list address -> Prop), (forall l, o_resolve o h p = inr l -> P l) -> result backlog P st servers (create_server_socket o backlog h p st servers)).
    { intros h p P HP. unfold create_server_socket. destruct (o_resolve o h p) as [e|l] eqn:R; [apply N; eapply (proj2 S); eauto|].
      destruct (create_loop o backlog l st servers) as [[e st'] servers'] eqn:L. apply create_loop_spec in L. destruct L as (socks&A&B&C&D&_&F). exists socks. split; auto. split; auto. split; auto. split; auto.
      intros E. exists l. split; auto. destruct F as [[_ F]|[F _]]; [exact F|congruence]. }
    destruct input as [e|].
    - pose proof (parse_spec port e) as P. destruct (parse_address port (Some e)) as [[h p]|x|]; [|apply N; discriminate|destruct P]. destruct P as (a&->&M). apply C. eauto.
    - cbn [parse_address]. apply C. auto.
  Qed.
  Lemma loop_spec port backlog es : forall st servers, result backlog (addresses o port es) st servers (init_loop o port backlog es st servers).
  Proof.
    induction es as [|x es IH]; intros st servers; cbn [init_loop].
    - exists []. rewrite !app_nil_r. repeat split; auto. intros _. exists []. split; constructor.
    - pose proof (fd_spec port backlog (Some x) st servers) as F. destruct (init_server_fd o port backlog (Some x) st servers) as [[e st1] sv1]. destruct F as (s1&A1&B1&C1&D1&E1).
      destruct (Z.eqb_spec e 0) as [->|NE]; cbn [negb].
      + specialize (IH st1 sv1). destruct (init_loop o port backlog es st1 sv1) as [[e' st2] sv2]. destruct IH as (s2&A2&B2&C2&D2&E2). exists (s1 ++ s2). rewrite A2, A1, B2, B1, map_app, <- !app_assoc.
        split; auto. split; auto. split; [apply Forall_app; auto|]. split; [intros N; rewrite <- app_assoc in A2 || idtac; specialize (D2 (D1 N)); rewrite A2, A1, <- app_assoc in D2; exact D2|].
        intros E. destruct (E1 eq_refl) as (l1&(a&p&M&R)&F1). destruct (E2 E) as (l2&W&F2). exists (l1 ++ l2). split; [econstructor; eauto|apply Forall2_app; auto].
      + exists s1. split; auto. split; auto. split; auto. split; auto. intros; congruence.
  Qed.
  Lemma fds_spec port backlog es st servers : result backlog (wanted o port es) st servers (init_server_fds o port backlog es st servers).
  Proof. unfold init_server_fds, wanted. destruct es as [|x es]; [exact (fd_spec port backlog None st servers)|apply loop_spec]. Qed.

  Lemma destroy_spec socks : forall st l, open st = l ++ socks -> NoDup (map k_fd (l ++ socks)) -> Forall (fun s => 0 <= k_fd s) socks -> open (destroy_db (map k_fd socks) st) = l.
  Proof.
    induction socks as [|s socks IH]; intros st l E N P; cbn [map destroy_db fold_left]; [rewrite app_nil_r in E; exact E|].
    inversion P as [|? ? PS P']; subst. apply IH; auto.
    - unfold cleanup_server. destruct (Z.eqb_spec (k_fd s) (-1)); [lia|]. cbn [negb sys_close open]. rewrite E, filter_app. cbn [filter]. rewrite Z.eqb_refl. cbn [negb].
      assert (F : forall l', ~ In (k_fd s) (map k_fd l') -> filter (fun x => negb (k_fd x =? k_fd s)) l' = l').
      { clear. induction l' as [|x l' IH]; cbn [map filter In]; intros N; auto. destruct (Z.eqb_spec (k_fd x) (k_fd s)) as [E|]; [exfalso; apply N; auto|]. cbn [negb]. f_equal. apply IH. tauto. }
      rewrite map_app in N. cbn [map] in N. apply NoDup_remove_2 in N. rewrite !F; auto; intros I; apply N; apply in_app_iff; auto.
    - rewrite map_app in *. cbn [map] in N. apply NoDup_remove_1 in N. exact N.
  Qed.
End Proofs.

(** ** If the server starts, it listens on all the addresses that the elements of server.address resolve to, each with its port or server.port, and on nothing else; and the thread polls exactly those sockets, in that order. *)
Theorem C92_started : forall o port backlog es pool thread st st' servers, sane_os o -> rtr_start o port backlog es pool thread st = (0, st', servers) ->
  exists l socks, wanted o port es l /\ open st' = open st ++ socks /\ Forall2 (listens backlog) l socks /\ servers = map k_fd socks.
Proof.
  intros o port backlog es pool thread st st' servers S H. unfold rtr_start in H. pose proof (fds_spec o S port backlog es st []) as F. destruct (init_server_fds o port backlog es st []) as [[e st1] sv]. destruct F as (socks&A&B&_&_&E).
  destruct (Z.eqb_spec e 0) as [->|NE]; cbn [negb] in H; [|congruence]. destruct (Z.eqb_spec pool 0); cbn [negb] in H; [|congruence]. destruct (Z.eqb_spec thread 0); cbn [negb] in H; [|congruence].
  injection H as <- <-. destruct (E eq_refl) as (l&W&F2). exists l, socks. auto.
Qed.
Print Assumptions C92_started.

(** ** If it doesn't, whatever failed and at whichever point, it leaves no socket behind. *)
Theorem C92_failed : forall o port backlog es pool thread st e st' servers, sane_os o -> NoDup (map k_fd (open st)) -> rtr_start o port backlog es pool thread st = (e, st', servers) -> e <> 0 ->
  open st' = open st /\ servers = [].
Proof.
  intros o port backlog es pool thread st e st' servers S N H NE. unfold rtr_start in H. pose proof (fds_spec o S port backlog es st []) as F. destruct (init_server_fds o port backlog es st []) as [[e1 st1] sv]. destruct F as (socks&A&B&P&ND&E).
  assert (D : open (destroy_db sv st1) = open st). { cbn [app] in B. subst sv. apply destroy_spec; auto. rewrite <- A. auto. }
  destruct (Z.eqb_spec e1 0) as [->|N1]; cbn [negb] in H; [|injection H as <- <- <-; auto]. destruct (Z.eqb_spec pool 0); cbn [negb] in H; [|injection H as <- <- <-; auto].
  destruct (Z.eqb_spec thread 0); cbn [negb] in H; [|injection H as <- <- <-; auto]. injection H as <- <- <-. congruence.
Qed.
Print Assumptions C92_failed.

(** ** And it starts if the addresses resolve and the system lets it. *)
Theorem C92_starts : forall o port backlog es st l, sane_os o -> wanted o port es l -> (forall n, o_fails o n = 0) ->
  exists st' servers, rtr_start o port backlog es 0 0 st = (0, st', servers).
Proof.
  intros o port backlog es st l S W OK.
  assert (CL : forall ais st sv, exists st' sv', create_loop o backlog ais st sv = (0, st', sv')).
  { intros ais st0 sv. destruct (create_loop o backlog ais st0 sv) as [[e st'] sv'] eqn:C. apply create_loop_spec in C; auto. destruct C as (socks&_&_&_&_&_&[[-> _]|(NE&n&_&F)]); [eauto|]. rewrite OK in F. congruence. }
  assert (FD : forall x a p l1 st sv, means port x a p -> o_resolve o (Some a) p = inr l1 -> exists st' sv', init_server_fd o port backlog (Some x) st sv = (0, st', sv')).
  { intros x a p l1 st0 sv M R. unfold init_server_fd. pose proof (parse_spec port x) as P. destruct (parse_address port (Some x)) as [[h p']|e|]; [|destruct (P _ _ M)|destruct P]. destruct P as (a'&->&M'). destruct (means_unique _ _ _ _ _ _ M M') as [<- <-].
    unfold create_server_socket. rewrite R. apply CL. }
  assert (G : exists st' sv', init_server_fds o port backlog es st [] = (0, st', sv')).
  { unfold wanted, init_server_fds in *. destruct es as [|x es].
    - unfold init_server_fd. cbn [parse_address]. unfold create_server_socket. rewrite W. apply CL.
    - generalize ([] : list Z). revert st. induction W as [|x' es' a p l1 l2 M R W IH]; intros st sv; cbn [init_loop]; [eauto|]. destruct (FD x' a p l1 st sv M R) as (st1&sv1&->). change (0 =? 0) with true. cbn [negb]. apply IH. }
  destruct G as (st'&sv'&G). unfold rtr_start. rewrite G. cbn. eauto.
Qed.
Print Assumptions C92_starts.

(** ** An element that says no address and port, or that doesn't resolve, keeps the server from starting. *)
Theorem C92_refused : forall o port backlog es pool thread st e st' servers x, sane_os o -> rtr_start o port backlog es pool thread st = (e, st', servers) -> In x es ->
  (forall a p l, means port x a p -> o_resolve o (Some a) p <> inr l) -> e <> 0.
Proof.
  intros o port backlog es pool thread st e st' servers x S H I N ->. destruct (C92_started _ _ _ _ _ _ _ _ _ S H) as (l&_&W&_). unfold wanted in W. destruct es as [|y es]; [destruct I|]. clear H.
  induction W as [|z es' a p l1 l2 M R W IH]; [destruct I|]. destruct I as [E|I]; [subst z; exact (N _ _ _ M R)|auto].
Qed.
Print Assumptions C92_refused.

(** ** Refuted: the documentation's second example, "localhost, ::1#8324", works.  It asks for a host named " ::1", so unless there is such a thing the server doesn't start. *)
Theorem C92_documented_refuted : forall o port backlog err, sane_os o -> o_resolve o (Some (cstr " ::1")) (cstr "8324") = inl err ->
  exists es, string_array_parse_argv 50 (cstr "localhost, ::1#8324") = Ok (map Some es) /\
    forall pool thread st e st' servers, rtr_start o port backlog es pool thread st = (e, st', servers) -> e <> 0.
Proof.
  intros o port backlog err S R. exists [cstr "localhost"; cstr " ::1#8324"]. split; [vm_compute; reflexivity|]. intros pool thread st e st' servers H.
  eapply (C92_refused _ _ _ _ _ _ _ _ _ _ (cstr " ::1#8324") S H); [right; left; reflexivity|].
  intros a p l M. assert (M0 : means port (cstr " ::1#8324") (cstr " ::1") (cstr "8324")) by (apply means_both; [reflexivity| |discriminate]; cbn; intuition discriminate).
  destruct (means_unique _ _ _ _ _ _ M M0) as [-> ->]. rewrite R. discriminate.
Qed.
Print Assumptions C92_documented_refuted.

Definition a_os (failing : nat) : os :=
  {| o_resolve h p := match h with
       | Some h => if list_eqb Z.eqb h (cstr "localhost") then inr [{| a_family := 2; a_bytes := [127; 0; 0; 1]; a_port := Z.of_nat (length p) |}; {| a_family := 10; a_bytes := [1]; a_port := Z.of_nat (length p) |}] else inl (-2)
       | None => inl (-2) end;
     o_fresh l := 1 + fold_right Z.max 2 l; o_fails n := if Nat.eqb n failing then 98 else 0 |}.
Example C92_example_sane n : sane_os (a_os n).
Proof.
  split; cbn [a_os o_fresh o_resolve].
  - assert (M : forall l, 2 <= fold_right Z.max 2 l /\ forall x, In x l -> x <= fold_right Z.max 2 l).
    { induction l as [|y l (A & B)]; cbn [fold_right In]; [split; [lia|tauto]|]. split; [lia|]. intros x [->|I]; [lia|]. specialize (B x I). lia. }
    intros l. destruct (M l) as (A & B). split; [|lia]. intros I. specialize (B _ I). lia.
  - intros h p e. destruct h as [h|]; [destruct (list_eqb Z.eqb h (cstr "localhost"))|]; intros E; try discriminate E; injection E as <-; discriminate.
Qed.
Example C92_example : 
  let st := {| open := []; clock := O |} in
  map k_fd (open (snd (fst (rtr_start (a_os 100) (cstr "323") 10 [cstr "localhost#8323"; cstr "localhost"] 0 0 st)))) = [3; 4; 5; 6] /\
  rtr_start (a_os 16) (cstr "323") 10 [cstr "localhost#8323"; cstr "localhost"] 0 0 st = (98, {| open := []; clock := 17 |}, []) /\
  rtr_start (a_os 100) (cstr "323") 10 [cstr "localhost#8323"; cstr "localhost#"] 0 0 st = (-22, {| open := []; clock := 12 |}, []).
Proof. vm_compute. auto. Qed.
