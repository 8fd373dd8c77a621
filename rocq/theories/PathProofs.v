(** Proofs about path building. *)
From Coq Require Import String.
From Verif Require Import Base BaseLemmas CString CLib PathBuilder PathSpec.
Notation length := List.length.

Definition cap_ok (n : nat) : Prop := exists k, (k <= 5)%nat /\ n = (128 * 2 ^ k)%nat.
(** The builder holds the string [s]. *)
Definition repr (pb : pbuilder) (s : list Z) : Prop :=
  pb_len pb = length s /\ ~ In 0 s /\ cap_ok (pb_capacity pb) /\ exists rest, pb_mem pb = s ++ 0 :: rest.

Lemma cap_ok_le n : cap_ok n -> (128 <= n <= 4096)%nat.
Proof. intros (k & K & ->). do 6 (destruct k as [|k]; [cbn; lia|]). lia. Qed.

Lemma store_app a b c b' : length b = length b' -> store (a ++ b ++ c) (length a) b' = Ok (a ++ b' ++ c).
Proof.
  intros L. unfold store. rewrite !app_length.
  destruct (Nat.leb_spec (length a + length b') (length a + (length b + length c))); [|lia].
  rewrite firstn_app, firstn_all, Nat.sub_diag. cbn [firstn]. rewrite app_nil_r.
  rewrite skipn_app, skipn_all2 by lia. cbn [app].
  replace (length a + length b' - length a)%nat with (length b) by lia.
  rewrite skipn_app, skipn_all2, Nat.sub_diag by lia. reflexivity.
Qed.
Lemma load_app x y : load (x ++ y) (length x) = Ok x.
Proof.
  unfold load. rewrite app_length. destruct (Nat.leb_spec (length x) (length x + length y)); [|lia].
  rewrite firstn_app, firstn_all, Nat.sub_diag. cbn [firstn]. rewrite app_nil_r. reflexivity.
Qed.

Lemma grow_spec total : (total <= 4096)%nat -> forall fuel cap, cap_ok cap -> (cap < total)%nat -> (64 - fuel <= 5)%nat -> (fuel <= 64)%nat ->
  exists c, grow_capacity fuel cap total = Some c /\ cap_ok c /\ (total <= c)%nat.
Proof.
  intros T. intros fuel cap (k & K & E) L. clear - T K E L.
  (* at most five rounds *)
  intros F1 F2.
  assert (G : forall j k fuel, (j + k = 5)%nat -> (S j <= fuel)%nat -> (128 * 2 ^ k < total)%nat ->
     exists c, grow_capacity fuel (128 * 2 ^ k) total = Some c /\ cap_ok c /\ (total <= c)%nat).
  { clear - T. induction j as [|j IH]; intros k fuel S1 S2 L.
    - replace k with 5%nat in * by lia. change (128 * 2 ^ 5)%nat with 4096%nat in L. lia.
    - destruct fuel as [|fuel]; [lia|]. cbn [grow_capacity]. cbv zeta.
      replace (2 * (128 * 2 ^ k))%nat with (128 * 2 ^ (S k))%nat by (cbn [Nat.pow]; lia).
      destruct (Nat.ltb_spec (128 * 2 ^ S k) total).
      + apply IH; lia.
      + eexists. split; eauto. split; auto. exists (S k). split; [lia|reflexivity]. }
  subst cap. destruct (G (5 - k)%nat k fuel) as (c & ?); try lia; eauto.
Qed.

Section Junk.
  Variable J : Z.
  Notation pb_appendn := (pb_appendn J).
  Notation pb_append := (pb_append J).
  Notation pb_init := (pb_init J).

  Lemma init_repr : repr pb_init [].
  Proof.
    split; [reflexivity|]. split; [auto|]. split; [exists O; split; [lia|reflexivity]|].
    eexists. reflexivity.
  Qed.

  Definition fits (s : list Z) : Prop := (length s + 1 <= 4096)%nat.

  Lemma grow_repr pb s total : repr pb s ->
    (if Nat.ltb (pb_capacity pb) total then pb_grow J pb total else Ok pb) =
      (if Nat.ltb 4096 total then Err ENOSPC else
       (if Nat.ltb (pb_capacity pb) total then pb_grow J pb total else Ok pb)) /\
    ((total <= 4096)%nat -> exists pb', (if Nat.ltb (pb_capacity pb) total then pb_grow J pb total else Ok pb) = Ok pb' /\
        repr pb' s /\ (total <= pb_capacity pb')%nat).
  Proof.
    intros (LN & N0 & CO & rest & M). pose proof (cap_ok_le _ CO) as CB. split.
    - destruct (Nat.ltb_spec 4096 total); auto. destruct (Nat.ltb_spec (pb_capacity pb) total); [|lia].
      unfold pb_grow, MAX_CAPACITY. destruct (Z.ltb_spec 4096 (Z.of_nat total)); [reflexivity|lia].
    - intros T. destruct (Nat.ltb_spec (pb_capacity pb) total) as [L|L].
      + unfold pb_grow, MAX_CAPACITY. destruct (Z.ltb_spec 4096 (Z.of_nat total)); [lia|].
        destruct (grow_spec total T 64 (pb_capacity pb) CO L) as (c & G & CO' & TC); try lia.
        rewrite G. eexists. split; [reflexivity|]. split.
        * split; [exact LN|]. split; auto. unfold pb_capacity. cbn [pb_mem]. rewrite app_length, repeat_length.
          fold (pb_capacity pb). replace (pb_capacity pb + (c - pb_capacity pb))%nat with c by lia. split; auto.
          rewrite M. eexists. rewrite <- app_assoc. reflexivity.
        * unfold pb_capacity at 1. cbn [pb_mem]. rewrite app_length, repeat_length. fold (pb_capacity pb). lia.
      + exists pb. split; auto. split; [|lia]. split; auto. split; auto. split; eauto.
  Qed.

  Definition glue (s x : list Z) : list Z := match s with [] => x | _ => s ++ [47] ++ x end.

  (** Appending the [length x] bytes at a pointer where one more byte can be
      read. *)
  Lemma appendn_spec pb s x y t : repr pb s -> x <> [] -> ~ In 0 x ->
    (fits (glue s x) -> exists pb', pb_appendn pb (x ++ y :: t) (length x) = Ok pb' /\ repr pb' (glue s x)) /\
    (~ fits (glue s x) -> pb_appendn pb (x ++ y :: t) (length x) = Err ENOSPC).
  Proof.
    intros R NE N0. unfold PathBuilder.pb_appendn.
    assert (LX : length x <> 0%nat) by (destruct x; cbn; congruence).
    destruct (length x) as [|lx] eqn:LX'; [congruence|]. rewrite <- LX'. clear LX lx LX'.
    pose proof R as (LN & NS & CO & rest & M).
    rewrite LN. cbv zeta.
    destruct (Nat.eqb_spec (length s) 0) as [E|E]; cbn [negb].
    - destruct s as [|? ?]; [|discriminate]. cbn [glue length Nat.add].
      destruct (grow_repr pb [] (length x + 1) R) as [G1 G2]. unfold fits. split.
      + intros F. destruct (G2 F) as (pb' & E1 & (LN' & _ & CO' & rest' & M') & C). rewrite E1. cbn [bind].
        rewrite load_app. cbn [bind].
        unfold pb_capacity in C. rewrite M' in C. cbn [app length] in C.
        rewrite LN', M'. cbn [app]. cbn [length].
        set (m := 0 :: rest') in *. assert (LM : (length x + 1 <= length m)%nat) by (cbn; lia).
        assert (S1 : exists m2 m3, m = m2 ++ m3 /\ length m2 = length x).
        { exists (firstn (length x) m), (skipn (length x) m). rewrite firstn_skipn, firstn_length. split; auto. lia. }
        destruct S1 as (m2 & m3 & EM & L2). rewrite EM in *. rewrite app_length in LM.
        pose proof (store_app [] m2 m3 x (eq_trans L2 eq_refl)) as S. cbn [app length] in S.
        change ([] ++ m2 ++ m3) with (m2 ++ m3). rewrite S. cbn [bind]. cbn [Nat.add].
        destruct m3 as [|z m3]; [cbn in LM; lia|].
        change (x ++ z :: m3) with (x ++ [z] ++ m3). rewrite store_app by reflexivity. cbn [bind].
        eexists. split; [reflexivity|]. split; [reflexivity|]. split; auto. split.
        * unfold pb_capacity in *. cbn [pb_mem]. rewrite M' in CO'. cbn [app] in CO'. try rewrite EM in CO'.
          rewrite !app_length in *. cbn [length] in *. rewrite <- L2. exact CO'.
        * eexists. reflexivity.
      + intros F. rewrite G1. destruct (Nat.ltb_spec 4096 (length x + 1)); [reflexivity|lia].
    - assert (GL : glue s x = s ++ [47] ++ x) by (destruct s; [destruct E; reflexivity|reflexivity]).
      rewrite GL. unfold fits. rewrite !app_length. cbn [length].
      replace (length s + S (length x) + 1)%nat with (length s + (1 + length x) + 1)%nat by lia.
      destruct (grow_repr pb s (length s + (1 + length x) + 1) R) as [G1 G2]. split.
      + intros F. destruct (G2 F) as (pb' & E1 & (LN' & _ & CO' & rest' & M') & C). rewrite E1. cbn [bind].
        change (x ++ y :: t) with (x ++ [y] ++ t). rewrite app_assoc.
        replace (S (length x)) with (length (x ++ [y])) by (rewrite app_length; cbn; lia).
        rewrite load_app. cbn [bind]. rewrite LN'.
        unfold pb_capacity in C. rewrite M' in C. rewrite app_length in C. cbn [length] in C.
        rewrite M'. change (s ++ 0 :: rest') with (s ++ [0] ++ rest'). rewrite store_app by reflexivity. cbn [bind].
        assert (S1 : exists m2 m3, rest' = m2 ++ m3 /\ length m2 = length (x ++ [y])).
        { exists (firstn (length (x ++ [y])) rest'), (skipn (length (x ++ [y])) rest'). rewrite firstn_skipn, firstn_length. split; auto.
          rewrite app_length. cbn [length]. lia. }
        destruct S1 as (m2 & m3 & EM & L2). subst rest'.
        rewrite app_assoc. replace (length s + 1)%nat with (length (s ++ [47])) by (rewrite app_length; cbn; lia).
        rewrite store_app by exact L2. cbn [bind].
        replace (length s + length (x ++ [y]))%nat with (length ((s ++ [47]) ++ x)) by (rewrite !app_length; cbn; lia).
        replace ((s ++ [47]) ++ (x ++ [y]) ++ m3) with (((s ++ [47]) ++ x) ++ [y] ++ m3) by (rewrite <- !app_assoc; reflexivity).
        rewrite store_app by reflexivity. cbn [bind].
        eexists. split; [reflexivity|]. cbn [pb_len pb_mem]. split; [rewrite !app_length; cbn; lia|].
        split. { rewrite !in_app_iff. cbn [In]. intros [H|[[H|[]]|H]]; [auto|discriminate|auto]. }
        split.
        * unfold pb_capacity in *. cbn [pb_mem]. rewrite M' in CO'. rewrite !app_length in *. cbn [length] in *.
          rewrite app_length in CO'. rewrite L2 in CO'. 
          match type of CO' with cap_ok ?a => match goal with |- cap_ok ?b => replace b with a by lia end end. exact CO'.
        * exists m3. rewrite <- !app_assoc. reflexivity.
      + intros F. rewrite G1. destruct (Nat.ltb_spec 4096 (length s + (1 + length x) + 1)); [reflexivity|lia].
  Qed.

  Lemma append_spec pb s x : repr pb s -> ~ In 0 x ->
    let s' := match x with [] => s | _ => glue s x end in
    (fits s' -> exists pb', pb_append pb (Some x) = Ok pb' /\ repr pb' s') /\
    (~ fits s' -> pb_append pb (Some x) = Err ENOSPC).
  Proof.
    intros R N0. cbv zeta. destruct x as [|c x].
    - cbn. split; [eauto|]. intros F. destruct F. destruct R as (LN & _ & CO & rest & M).
      apply cap_ok_le in CO. unfold pb_capacity in CO. rewrite M in CO. rewrite app_length in CO. cbn in CO.
      unfold fits. lia.
    - unfold PathBuilder.pb_append. apply appendn_spec; auto. discriminate.
  Qed.

  Lemma repr_fits pb s : repr pb s -> fits s.
  Proof.
    intros (LN & _ & CO & rest & M). apply cap_ok_le in CO. unfold pb_capacity in CO. rewrite M in CO.
    rewrite app_length in CO. cbn in CO. unfold fits. lia.
  Qed.

  Lemma c_string_app s rest : ~ In 0 s -> c_string (s ++ 0 :: rest) = Some s.
  Proof.
    induction s as [|c s IH]; intros N; cbn; [reflexivity|].
    destruct (Z.eqb_spec c 0) as [->|]; [destruct N; left; auto|].
    rewrite IH; [reflexivity|]. intros H. apply N. right. auto.
  Qed.
  Lemma string_spec pb s : repr pb s -> pb_string pb = Ok s.
  Proof. intros (LN & N0 & CO & rest & M). unfold pb_string. rewrite M, c_string_app; auto. Qed.

  (** ** Popping. *)
  Lemma slash_case {A} (o : option Z) (a b : A) : o <> Some 47 -> match o with Some 47 => a | _ => b end = b.
  Proof.
    intros N. destruct o as [z|]; auto. destruct (Z.eq_dec z 47) as [->|NE]; [congruence|].
    destruct z as [|p|p]; auto. do 6 (destruct p as [p|p|]; auto). all: congruence.
  Qed.
  Lemma last_slash_none mem i : (forall j, (1 <= j <= i)%nat -> nth_error mem j <> Some 47) -> last_slash mem i = None.
  Proof.
    induction i as [|i IH]; intros H; cbn [last_slash]; auto.
    pose proof (H (S i) ltac:(lia)) as N. cbn [nth_error] in *. 
    rewrite IH by (intros; apply H; lia).
    apply slash_case. exact N.
  Qed.
  Lemma last_slash_some mem i k : (1 <= k <= i)%nat -> nth_error mem k = Some 47 ->
    (forall j, (k < j <= i)%nat -> nth_error mem j <> Some 47) -> last_slash mem i = Some k.
  Proof.
    induction i as [|i IH]; intros K E H; [lia|]. cbn [last_slash].
    destruct (Nat.eq_dec k (S i)) as [->|NE]; [rewrite E; reflexivity|].
    pose proof (H (S i) ltac:(lia)) as N. rewrite IH; auto; try lia; [|intros; apply H; lia].
    apply slash_case. exact N.
  Qed.

  Lemma pop_spec pb s x fatal : repr pb (s ++ [47] ++ x) -> s <> [] -> ~ In 47 x ->
    exists pb', pb_pop pb fatal = Ok pb' /\ repr pb' s.
  Proof.
    intros (LN & N0 & CO & rest & M) NE NX. unfold pb_pop. rewrite M, LN. rewrite !app_length. cbn [length].
    destruct s as [|c s]; [congruence|]. cbn [app length].
    destruct (Nat.eqb_spec (S (length s) + (1 + length x)) 0); [lia|].
    destruct (Nat.eqb_spec (S (length s) + (1 + length x)) 1); [lia|]. cbn [orb andb].
    set (mem := c :: _). assert (EM : mem = (c :: s) ++ 47 :: x ++ 0 :: rest) by (unfold mem; cbn; rewrite <- app_assoc; reflexivity).
    rewrite (last_slash_some mem _ (length (c :: s))).
    - rewrite EM. change ((c :: s) ++ 47 :: x ++ 0 :: rest) with ((c :: s) ++ [47] ++ x ++ 0 :: rest).
      rewrite store_app by reflexivity. cbn [bind]. eexists. split; [reflexivity|]. cbn [pb_len pb_mem].
      split; [reflexivity|]. split. { intros H. apply N0. apply in_app_iff. auto. } split.
      + unfold pb_capacity in *. cbn [pb_mem]. rewrite M in CO. rewrite !app_length in *. cbn [length] in *.
        try rewrite app_length in CO. try rewrite app_length. cbn [length] in *.
        match type of CO with cap_ok ?a => match goal with |- cap_ok ?b => replace b with a by lia end end. exact CO.
      + eexists. reflexivity.
    - cbn [length]. lia.
    - rewrite EM, nth_error_app2, Nat.sub_diag by lia. reflexivity.
    - intros j Hj H. rewrite EM, nth_error_app2 in H by lia.
      destruct (j - length (c :: s))%nat as [|d] eqn:D; [lia|]. cbn [nth_error] in H.
      cbn [length] in *. rewrite nth_error_app1 in H by lia. apply nth_error_In in H. auto.
  Qed.

  (** Popping always shortens, or fails. *)
  Lemma pop_shrinks pb s : repr pb s -> pb_pop pb false = Err EINVAL \/
    exists pb', pb_pop pb false = Ok pb' /\ (pb_len pb' < length s)%nat.
  Proof.
    intros (LN & N0 & CO & rest & M). unfold pb_pop. rewrite LN.
    destruct (Nat.eqb_spec (length s) 0); [left; reflexivity|].
    set (first := match pb_mem pb with c :: _ => c | [] => 0 end).
    assert (SM : forall i b, (i < length s)%nat -> exists m, store (pb_mem pb) i [b] = Ok m).
    { intros i b L. unfold store. rewrite M, app_length. cbn [length].
      destruct (Nat.leb_spec (i + 1) (length s + S (length rest))); [eauto|lia]. }
    assert (LS : forall mem i k, last_slash mem i = Some k -> (k <= i)%nat).
    { intros mem. induction i as [|i IH]; intros k; cbn [last_slash]; [discriminate|].
      assert (D : {nth_error mem (S i) = Some 47} + {nth_error mem (S i) <> Some 47}) by (repeat decide equality).
      destruct D as [D|D]; [rewrite D; intros H; inversion H; lia|]. rewrite slash_case by exact D. intros H. apply IH in H. lia. }
    destruct (Nat.eqb_spec (length s) 1) as [L1|L1]; cbn [orb andb].
    - destruct (first =? 47) eqn:F; [left; reflexivity|]. right. rewrite L1. cbn [Nat.sub last_slash].
      destruct (SM 0%nat 0 ltac:(lia)) as (m & ->). cbn [bind]. eexists. split; [reflexivity|]. cbn. lia.
    - right. destruct (last_slash (pb_mem pb) (length s - 1)) as [k|] eqn:Q.
      + apply LS in Q. destruct (SM k 0 ltac:(lia)) as (m & ->). cbn [bind]. eexists. split; [reflexivity|]. cbn. lia.
      + destruct (first =? 47).
        * destruct (SM 1%nat 0 ltac:(lia)) as (m & ->). cbn [bind]. eexists. split; [reflexivity|]. cbn. lia.
        * destruct (SM 0%nat 0 ltac:(lia)) as (m & ->). cbn [bind]. eexists. split; [reflexivity|]. cbn. lia.
  Qed.
End Junk.
