(** C47, C48, C49: tokens, base64url, integer options. *)
From Coq Require Import String.
From Verif Require Import Base BaseLemmas CString CLib PathBuilder Text TextSpec.
Notation length := List.length.

(** * C47: tokens *)
Section Tokens.
  Variable sep : Z.
  Lemma tokens_fun s l1 : tokens sep s l1 -> forall l2, tokens sep s l2 -> l1 = l2.
  Proof.
    assert (D : forall seps1 seps2 t1 t2, Forall (fun c => c = sep) seps1 -> Forall (fun c => c = sep) seps2 ->
      match t1 with [] => False | c :: _ => c <> sep end -> match t2 with [] => False | c :: _ => c <> sep end -> seps1 ++ t1 = seps2 ++ t2 -> t1 = t2).
    { induction seps1 as [|a s1 IH]; intros [|b s2] t1 t2 F1 F2 H1 H2 E; cbn [app] in E; auto.
      - pose proof (Forall_inv F2) as K. rewrite E in H1. cbn in H1. congruence.
      - pose proof (Forall_inv F1) as K. rewrite <- E in H2. cbn in H2. congruence.
      - injection E as _ E. inversion F1; inversion F2; subst. eapply IH; eauto. }
    assert (K : forall t1 t2 r1 r2, ~ In sep t1 -> ~ In sep t2 -> (r1 = [] \/ exists r, r1 = sep :: r) -> (r2 = [] \/ exists r, r2 = sep :: r) -> t1 ++ r1 = t2 ++ r2 -> t1 = t2 /\ r1 = r2).
    { induction t1 as [|a t1 IH]; intros [|b t2] r1 r2 N1 N2 H1 H2 E; cbn [app] in E; auto.
      - exfalso. destruct H1 as [->|(r&->)]; [discriminate|]. injection E as -> _. apply N2. left; auto.
      - exfalso. destruct H2 as [->|(r&->)]; [discriminate|]. injection E as -> _. apply N1. left; auto.
      - injection E as -> E. destruct (IH t2 r1 r2) as [-> ->]; auto; intros J; [apply N1|apply N2]; right; auto. }
    assert (Hd : forall t (r : list Z), t <> [] -> ~ In sep t -> match t ++ r with [] => False | c :: _ => c <> sep end).
    { intros [|c t] r H N; [congruence|]. cbn. intros ->. apply N. left; auto. }
    intros T. induction T as [s F|seps tok rest l F NE NI HR T IH]; intros l2 T2; inversion T2 as [s' F' E'|seps' tok' rest' l' F' NE' NI' HR' T' E']; subst; auto.
    - exfalso. rewrite !Forall_app in F. destruct F as (_&F&_). destruct tok'; [congruence|]. inversion F; subst. apply NI'. left; auto.
    - exfalso. rewrite !Forall_app in F'. destruct F' as (_&F'&_). destruct tok; [congruence|]. inversion F'; subst. apply NI. left; auto.
    - assert (E : tok' ++ rest' = tok ++ rest) by (apply (D seps' seps); auto; apply Hd; auto).
      apply K in E; auto. destruct E as [-> ->]. f_equal. apply IH. auto.
  Qed.

  Notation tk str len s e := {| tk_str := str; tk_len := len; tk_sep := sep; tk_start := s; tk_end := e |}.

  Lemma peek_at (pre : list Z) c suf : peek (pre ++ c :: suf) (length pre) = Ok c.
  Proof. unfold peek. rewrite nth_error_app2, Nat.sub_diag by lia. reflexivity. Qed.

  Lemma skip_sep_ok extra st en : forall suf fuel pre, (length suf < fuel)%nat -> suf <> [] ->
    (Forall (fun c => c = sep) suf /\ skip_sep fuel (tk (pre ++ suf ++ extra) (length (pre ++ suf)) st en) (length pre) = Ok None) \/
    (exists seps c rest, suf = seps ++ c :: rest /\ Forall (fun c => c = sep) seps /\ c <> sep /\
       skip_sep fuel (tk (pre ++ suf ++ extra) (length (pre ++ suf)) st en) (length pre) = Ok (Some (length pre + length seps)%nat)).
  Proof.
    induction suf as [|c suf IH]; intros fuel pre L NE; [congruence|]. destruct fuel as [|fuel]; [cbn in L; lia|].
    cbn [skip_sep tk_str tk_len tk_sep app]. rewrite peek_at. cbn [bind]. destruct (Z.eqb_spec c sep) as [->|NC].
    - destruct suf as [|d suf].
      + left. split; [constructor; auto|]. rewrite app_length. cbn [length]. rewrite Nat.eqb_refl. reflexivity.
      + destruct (Nat.eqb_spec (length pre + 1) (length (pre ++ sep :: d :: suf))) as [E|_]; [rewrite app_length in E; cbn [length] in E; lia|].
        destruct (IH fuel (pre ++ [sep])) as [(F&E)|(seps&x&rest&E1&F&N&E)]; [cbn [length] in *; lia|discriminate| |].
        * left. split; [constructor; auto|]. rewrite <- !app_assoc in E. cbn [app] in E. rewrite !app_length in *. cbn [length] in *. exact E.
        * right. exists (sep :: seps), x, rest. split; [cbn [app]; rewrite <- E1; reflexivity|]. split; [constructor; auto|]. split; auto.
          rewrite <- !app_assoc in E. cbn [app] in E. rewrite !app_length in *. cbn [length app] in *. rewrite E. do 2 f_equal. lia.
    - right. exists [], c, suf. repeat split; auto. cbn [length]. do 2 f_equal. lia.
  Qed.
  Lemma find_sep_ok extra st en : forall suf fuel pre, (length suf < fuel)%nat ->
    exists tok rest, suf = tok ++ rest /\ ~ In sep tok /\ (rest = [] \/ exists r, rest = sep :: r) /\
      find_sep fuel (tk (pre ++ suf ++ extra) (length (pre ++ suf)) st en) (length pre) = Ok (length pre + length tok)%nat.
  Proof.
    induction suf as [|c suf IH]; intros fuel pre L; (destruct fuel as [|fuel]; [cbn in L; lia|]); cbn [find_sep tk_str tk_len tk_sep].
    - exists [], []. rewrite (app_nil_r pre), Nat.ltb_irrefl. cbn [length]. repeat split; auto.
    - destruct (Nat.ltb_spec (length pre) (length (pre ++ c :: suf))) as [_|K]; [|rewrite app_length in K; cbn in K; lia].
      cbn [app]. rewrite peek_at. cbn [bind]. destruct (Z.eqb_spec c sep) as [->|NC].
      + exists [], (sep :: suf). cbn [length]. rewrite Nat.add_0_r. repeat split; eauto.
      + destruct (IH fuel (pre ++ [c])) as (tok&rest&->&N&R&E); [cbn [length] in L; lia|].
        exists (c :: tok), rest. split; auto. split; [intros [K|K]; auto|]. split; auto.
        assert (Q1 : (pre ++ [c]) ++ (tok ++ rest) ++ extra = pre ++ c :: (tok ++ rest) ++ extra) by (rewrite <- !app_assoc; reflexivity).
        assert (Q2 : length ((pre ++ [c]) ++ tok ++ rest) = length (pre ++ c :: tok ++ rest)) by (rewrite <- !app_assoc; reflexivity).
        assert (Q3 : length (pre ++ [c]) = (length pre + 1)%nat) by (rewrite app_length; reflexivity).
        rewrite Q1, Q2, Q3 in E. rewrite E. f_equal. cbn [length]. lia.
  Qed.

  Lemma next_ok extra pre suf st :
    (Forall (fun c => c = sep) suf /\ exists st', string_tokenizer_next (tk (pre ++ suf ++ extra) (length (pre ++ suf)) st (length pre))
       = Ok (false, tk (pre ++ suf ++ extra) (length (pre ++ suf)) st' (length (pre ++ suf)))) \/
    (exists seps tok rest, suf = seps ++ tok ++ rest /\ Forall (fun c => c = sep) seps /\ tok <> [] /\ ~ In sep tok /\ (rest = [] \/ exists r, rest = sep :: r) /\
       string_tokenizer_next (tk (pre ++ suf ++ extra) (length (pre ++ suf)) st (length pre))
       = Ok (true, tk (pre ++ suf ++ extra) (length (pre ++ suf)) (length (pre ++ seps)) (length (pre ++ seps ++ tok)))).
  Proof.
    unfold string_tokenizer_next. cbn [tk_end tk_len]. destruct (Nat.eqb_spec (length pre) (length (pre ++ suf))) as [E|NE].
    - left. assert (suf = []) as -> by (rewrite app_length in E; apply length_zero_iff_nil; lia). split; [constructor|]. rewrite app_nil_r in *. eauto.
    - assert (NS : suf <> []) by (intros ->; rewrite app_nil_r in NE; congruence).
      remember (S (length (pre ++ suf))) as fuel eqn:EF.
      assert (LF : (length suf < fuel)%nat) by (rewrite EF, app_length; lia). clear EF.
      destruct (skip_sep_ok extra st (length pre) suf fuel pre LF NS) as [(F&E)|(seps&c&rest&E1&F&N&E)]; rewrite E; cbn [bind].
      + left. split; auto. unfold set_token. cbn [tk_str tk_sep tk_len]. eauto.
      + right. destruct (find_sep_ok extra st (length pre) (c :: rest) fuel (pre ++ seps)) as (tok&r&E2&NI&R&E3).
        { rewrite E1, app_length in LF. lia. }
        exists seps, tok, r. rewrite E2 in E1, E3. split; auto. split; auto. split.
        { intros ->. cbn in E2. subst r. destruct R as [K|(q&K)]; [discriminate|]. injection K as -> _. congruence. }
        split; auto. split; auto.
        assert (Q1 : (pre ++ seps) ++ (tok ++ r) ++ extra = pre ++ suf ++ extra) by (rewrite E1, <- !app_assoc; reflexivity).
        assert (Q2 : length ((pre ++ seps) ++ tok ++ r) = length (pre ++ suf)) by (rewrite E1, <- !app_assoc; reflexivity).
        rewrite Q1, Q2 in E3. rewrite <- (app_length pre seps). rewrite E3. cbn [bind]. unfold set_token. cbn [tk_str tk_sep tk_len].
        replace (length (pre ++ seps ++ tok)) with (length (pre ++ seps) + length tok)%nat by (rewrite !app_length; lia). reflexivity.
  Qed.

  (** All the tokens a caller gets. *)
  Fixpoint all_tokens (fuel : nat) (t : tokenizer) : res (list (list Z)) :=
    match fuel with
    | O => UB
    | S fuel => bind (string_tokenizer_next t) (fun '(more, t) =>
        if more then bind (token_read t) (fun s => bind (all_tokens fuel t) (fun l => Ok (s :: l))) else Ok [])
    end.

  Lemma read_at extra (pre seps tok rest : list Z) : load (skipn (length (pre ++ seps)) (pre ++ (seps ++ tok ++ rest) ++ extra)) (length (pre ++ seps ++ tok) - length (pre ++ seps)) = Ok tok.
  Proof.
    unfold load. replace (pre ++ (seps ++ tok ++ rest) ++ extra) with ((pre ++ seps) ++ tok ++ rest ++ extra) by (rewrite <- !app_assoc; reflexivity).
    rewrite skipn_app, skipn_all, Nat.sub_diag. cbn [skipn app].
    replace (length (pre ++ seps ++ tok) - length (pre ++ seps))%nat with (length tok) by (rewrite !app_length; lia).
    destruct (Nat.leb_spec (length tok) (length (tok ++ rest ++ extra))) as [_|K]; [|rewrite app_length in K; lia].
    f_equal. rewrite firstn_app, firstn_all, Nat.sub_diag. cbn [firstn]. apply app_nil_r.
  Qed.

  Lemma loops_ok extra : forall n suf pre st, (length suf <= n)%nat -> exists l, tokens sep suf l /\
    (forall fuel, (length suf < fuel)%nat -> all_tokens fuel (tk (pre ++ suf ++ extra) (length (pre ++ suf)) st (length pre)) = Ok l) /\
    (forall fuel k, (length suf < fuel)%nat -> count_loop fuel (tk (pre ++ suf ++ extra) (length (pre ++ suf)) st (length pre)) k = Ok (k + length l)%nat) /\
    (forall fuel done, (length suf < fuel)%nat -> fill_loop fuel (tk (pre ++ suf ++ extra) (length (pre ++ suf)) st (length pre)) (length done) (done ++ repeat None (length l)) = Ok (done ++ map Some l)).
  Proof.
    induction n as [|n IH]; intros suf pre st L.
    - assert (suf = []) as -> by (apply length_zero_iff_nil; lia). exists []. split; [constructor; constructor|].
      split; [|split]; (intros [|fuel]; intros; [cbn in *; lia|]); cbn [all_tokens count_loop fill_loop]; unfold string_tokenizer_next; cbn [tk_end tk_len]; rewrite !app_nil_r, Nat.eqb_refl; cbn [bind]; auto.
      all: try (cbn; f_equal; lia).
    - destruct (next_ok extra pre suf st) as [(F&st'&E)|(seps&tok&rest&E1&F&NE&NI&R&E)].
      + exists []. split; [constructor; auto|]. split; [|split]; (intros [|fuel]; intros; [lia|]); cbn [all_tokens count_loop fill_loop]; rewrite E; cbn [bind length repeat map]; rewrite ?Nat.add_0_r; auto.
      + destruct (IH rest (pre ++ seps ++ tok) (length (pre ++ seps))) as (l&T&A1&A2&A3).
        { rewrite E1 in L. rewrite !app_length in L. destruct tok; [congruence|cbn [length] in L; lia]. }
        assert (EQ : (pre ++ seps ++ tok) ++ rest ++ extra = pre ++ suf ++ extra) by (rewrite E1, <- !app_assoc; reflexivity).
        assert (EL : length ((pre ++ seps ++ tok) ++ rest) = length (pre ++ suf)) by (rewrite E1, <- !app_assoc; reflexivity).
        assert (LR : (length rest < length suf)%nat) by (rewrite E1, !app_length; destruct tok; [congruence|cbn [length]; lia]).
        rewrite EQ, EL in *.
        assert (RD : token_read (tk (pre ++ suf ++ extra) (length (pre ++ suf)) (length (pre ++ seps)) (length (pre ++ seps ++ tok))) = Ok tok).
        { unfold token_read. cbn [tk_start tk_end tk_str]. rewrite E1. apply read_at. }
        exists (tok :: l). split; [rewrite E1; constructor; auto|]. split; [|split]; (intros [|fuel]; intros; [lia|]); cbn [all_tokens count_loop fill_loop]; rewrite E; cbn [bind].
        * rewrite RD. cbn [bind]. rewrite A1 by lia. reflexivity.
        * rewrite A2 by lia. f_equal. cbn [length]. lia.
        * rewrite RD. cbn [bind]. destruct (Nat.ltb_spec (length done) (length (done ++ repeat None (length (tok :: l))))) as [_|K]; [|rewrite app_length, repeat_length in K; cbn in K; lia].
          assert (U : upd (done ++ repeat None (length (tok :: l))) (length done) (Some tok) = (done ++ [Some tok]) ++ repeat None (length l)).
          { cbn [length repeat]. clear. induction done as [|d done IHd]; [reflexivity|]. cbn [app length upd]. f_equal. exact IHd. }
          rewrite U. replace (length done + 1)%nat with (length (done ++ [Some tok])) by (rewrite app_length; cbn; lia). rewrite A3 by lia. rewrite <- app_assoc. reflexivity.
  Qed.
End Tokens.

(** Tokenising a string yields its tokens, in order, and ends; nothing outside of the
    string is read, no matter what follows it ([extra] may be empty). *)
Theorem C47_tokens sep str extra : exists l, tokens sep str l /\ (forall l', tokens sep str l' -> l' = l) /\
  all_tokens (S (length str)) (string_tokenizer_init (str ++ extra) (length str) sep) = Ok l /\
  token_count (string_tokenizer_init (str ++ extra) (length str) sep) = Ok (length l).
Proof.
  destruct (loops_ok sep extra (length str) str [] 0 ltac:(lia)) as (l&T&A1&A2&A3). cbn [app length] in *.
  exists l. split; auto. split; [intros; eapply tokens_fun; eauto|]. split; [apply A1; lia|]. unfold token_count. cbn [tk_str tk_len tk_sep string_tokenizer_init].
  unfold string_tokenizer_init. rewrite A2 by lia. reflexivity.
Qed.
(** Comparing tokens is comparing their bytes. *)
Theorem C47_equals t1 t2 a b : token_read t1 = Ok a -> token_read t2 = Ok b ->
  exists r, token_equals t1 t2 = Ok r /\ (r = true <-> a = b).
Proof.
  unfold token_read, token_equals. intros A B.
  assert (LA : length a = (tk_end t1 - tk_start t1)%nat).
  { unfold load in A. destruct (Nat.leb_spec (tk_end t1 - tk_start t1) (length (skipn (tk_start t1) (tk_str t1)))); [|discriminate]. injection A as <-. rewrite firstn_length. lia. }
  assert (LB : length b = (tk_end t2 - tk_start t2)%nat).
  { unfold load in B. destruct (Nat.leb_spec (tk_end t2 - tk_start t2) (length (skipn (tk_start t2) (tk_str t2)))); [|discriminate]. injection B as <-. rewrite firstn_length. lia. }
  destruct (Nat.eqb_spec (tk_end t1 - tk_start t1) (tk_end t2 - tk_start t2)) as [E|NE].
  - rewrite A. cbn [bind]. rewrite E, B. cbn [bind]. eexists. split; [reflexivity|]. apply (list_eqb_spec Z.eqb Z.eqb_eq).
  - exists false. split; auto. split; [discriminate|]. intros ->. congruence.
Qed.
(** A comma-separated option holds exactly its tokens, if there aren't too many. *)
Theorem C47_option max str l : tokens 44 str l ->
  string_array_parse_argv max str = if (0 <? max) && (max <? Z.of_nat (length l)) then Err EINVAL else Ok (map Some l).
Proof.
  intros T. destruct (loops_ok 44 [0] (length str) str [] 0 ltac:(lia)) as (l'&T'&A1&A2&A3). cbn [app length] in *.
  assert (l' = l) by (eapply tokens_fun; eauto). subst l'.
  unfold string_array_parse_argv, token_count, string_tokenizer_init. cbn [tk_str tk_len tk_sep]. rewrite A2 by lia. cbn [bind Nat.add].
  destruct ((0 <? max) && (max <? Z.of_nat (length l))); auto. apply (A3 (S (length str)) []). lia.
Qed.
Example C47_nonvacuous :
  all_tokens 30 (string_tokenizer_init (cstr "//a//bc/d" ++ [47; 9]) 9 47) = Ok [cstr "a"; cstr "bc"; cstr "d"] /\
  tokens 47 (cstr "//a//bc/d") [cstr "a"; cstr "bc"; cstr "d"] /\
  string_array_parse_argv 2 (cstr ",x,,yz") = Ok [Some (cstr "x"); Some (cstr "yz")] /\
  string_array_parse_argv 1 (cstr ",x,,yz") = Err EINVAL.
Proof.
  split; [reflexivity|]. split.
  - apply (tokens_more 47 [47; 47] [97] (cstr "//bc/d")); [repeat constructor|discriminate|cbn; intuition discriminate|right; eexists; reflexivity|].
    apply (tokens_more 47 [47; 47] [98; 99] (cstr "/d")); [repeat constructor|discriminate|cbn; intuition discriminate|right; eexists; reflexivity|].
    apply (tokens_more 47 [47] [100] []); [repeat constructor|discriminate|cbn; intuition discriminate|left; reflexivity|]. constructor. constructor.
  - split; reflexivity.
Qed.

(** * C48: base64url *)
Lemma alpha_std i : 0 <= i -> to_std (alphabet 45 95 i) = alphabet 43 47 i.
Proof.
  intros H. unfold alphabet. destruct (Z.ltb_spec i 26); [|destruct (Z.ltb_spec i 52); [|destruct (Z.ltb_spec i 62); [|destruct (Z.eqb_spec i 62)]]]; unfold to_std.
  1-3: match goal with |- context [?x =? 45] => destruct (Z.eqb_spec x 45); [lia|destruct (Z.eqb_spec x 95); [lia|reflexivity]] end.
  all: reflexivity.
Qed.
Lemma alpha_url i : 0 <= i -> to_url (alphabet 43 47 i) = alphabet 45 95 i.
Proof.
  intros H. unfold alphabet. destruct (Z.ltb_spec i 26); [|destruct (Z.ltb_spec i 52); [|destruct (Z.ltb_spec i 62); [|destruct (Z.eqb_spec i 62)]]]; unfold to_url.
  1-3: match goal with |- context [?x =? 43] => destruct (Z.eqb_spec x 43); [lia|destruct (Z.eqb_spec x 47); [lia|reflexivity]] end.
  all: reflexivity.
Qed.
Lemma alpha_plain i : 0 <= i -> alphabet 43 47 i <> 61 /\ alphabet 43 47 i <> 0.
Proof. intros H. unfold alphabet. destruct (Z.ltb_spec i 26); [|destruct (Z.ltb_spec i 52); [|destruct (Z.ltb_spec i 62); [|destruct (Z.eqb_spec i 62)]]]; lia. Qed.
Lemma alpha_value i : 0 <= i < 64 -> value (alphabet 43 47 i) = Some i.
Proof.
  intros H. unfold alphabet. destruct (Z.ltb_spec i 26); [|destruct (Z.ltb_spec i 52); [|destruct (Z.ltb_spec i 62); [|destruct (Z.eqb_spec i 62)]]]; unfold value.
  - destruct (Z.leb_spec 65 (65 + i)), (Z.leb_spec (65 + i) 90); try lia. cbn [andb]. f_equal. lia.
  - destruct (Z.leb_spec 65 (97 + (i - 26))), (Z.leb_spec (97 + (i - 26)) 90), (Z.leb_spec 97 (97 + (i - 26))), (Z.leb_spec (97 + (i - 26)) 122); try lia. cbn [andb]. f_equal. lia.
  - destruct (Z.leb_spec 65 (48 + (i - 52))), (Z.leb_spec 97 (48 + (i - 52))), (Z.leb_spec 48 (48 + (i - 52))), (Z.leb_spec (48 + (i - 52)) 57); try lia. cbn [andb]. f_equal. lia.
  - subst. reflexivity.
  - replace i with 63 by lia. reflexivity.
Qed.

Lemma three_ind (P : list Z -> Prop) : P [] -> (forall a, P [a]) -> (forall a b, P [a; b]) -> (forall a b c l, P l -> P (a :: b :: c :: l)) -> forall l, P l.
Proof. intros H0 H1 H2 H3. fix IH 1. intros [|a [|b [|c l]]]; [exact H0|apply H1|apply H2|apply H3, IH]. Qed.

Lemma byte_parts a : is_byte a -> 0 <= a / 4 < 64 /\ 0 <= a mod 4 < 4 /\ 0 <= a / 16 < 16 /\ 0 <= a mod 16 < 16 /\ 0 <= a / 64 < 4 /\ 0 <= a mod 64 < 64.
Proof.
  unfold is_byte. intros H. repeat split; try (apply Z.mod_pos_bound; lia); try (apply Z.div_pos; lia); apply Z.div_lt_upper_bound; lia.
Qed.
(** Padding, as many as it takes. *)
Definition padding (data : list Z) : nat := match (length data mod 3)%nat with 0 => 0 | 1 => 2 | _ => 1 end%nat.
Lemma mod3_step n : (S (S (S n)) mod 3 = n mod 3)%nat.
Proof. replace (S (S (S n))) with (n + 1 * 3)%nat by lia. apply Nat.mod_add. lia. Qed.
Lemma std_of_url data : Forall is_byte data -> base64 data = map to_std (base64url data) ++ repeat 61 (padding data).
Proof.
  induction data as [|a|a b|a b c l IH] using three_ind; intros F; repeat match goal with H : Forall _ (_ :: _) |- _ => inversion H; clear H; subst end;
    repeat match goal with H : is_byte _ |- _ => apply byte_parts in H end; unfold base64, base64url in *; cbn [rfc4648 app map]; rewrite ?map_app; cbn [map].
  - reflexivity.
  - rewrite !alpha_std by lia. reflexivity.
  - rewrite !alpha_std by lia. reflexivity.
  - rewrite !alpha_std by lia. rewrite IH by auto. cbn [app]. unfold padding. cbn [length]. rewrite mod3_step. reflexivity.
Qed.
Lemma url_of_std data : Forall is_byte data -> exists s, base64 data = s ++ repeat 61 (padding data) /\ ~ In 61 s /\ ~ In 0 s /\ map to_url s = base64url data.
Proof.
  induction data as [|a|a b|a b c l IH] using three_ind; intros F; repeat match goal with H : Forall _ (_ :: _) |- _ => inversion H; clear H; subst end;
    repeat match goal with H : is_byte _ |- _ => apply byte_parts in H end; unfold base64, base64url in *; cbn [rfc4648].
  - exists []. repeat split; auto.
  - exists [alphabet 43 47 (a / 4); alphabet 43 47 (a mod 4 * 16)]. split; [reflexivity|]. cbn [map app In]. rewrite !alpha_url by lia. 
    pose proof (alpha_plain (a / 4) ltac:(lia)). pose proof (alpha_plain (a mod 4 * 16) ltac:(lia)). repeat split; [intros [|[|]]; tauto|intros [|[|]]; tauto].
  - exists [alphabet 43 47 (a / 4); alphabet 43 47 (a mod 4 * 16 + b / 16); alphabet 43 47 (b mod 16 * 4)]. split; [reflexivity|]. cbn [map app In]. rewrite !alpha_url by lia.
    pose proof (alpha_plain (a / 4) ltac:(lia)). pose proof (alpha_plain (a mod 4 * 16 + b / 16) ltac:(lia)). pose proof (alpha_plain (b mod 16 * 4) ltac:(lia)).
    repeat split; [intros [|[|[|]]]; tauto|intros [|[|[|]]]; tauto].
  - destruct IH as (s&E&N1&N2&E2); auto.
    exists ([alphabet 43 47 (a / 4); alphabet 43 47 (a mod 4 * 16 + b / 16); alphabet 43 47 (b mod 16 * 4 + c / 64); alphabet 43 47 (c mod 64)] ++ s). split.
    { rewrite E. unfold padding. cbn [length]. rewrite mod3_step. reflexivity. }
    cbn [map app In]. rewrite !alpha_url by lia. rewrite E2.
    pose proof (alpha_plain (a / 4) ltac:(lia)). pose proof (alpha_plain (a mod 4 * 16 + b / 16) ltac:(lia)). pose proof (alpha_plain (b mod 16 * 4 + c / 64) ltac:(lia)). pose proof (alpha_plain (c mod 64) ltac:(lia)).
    repeat split; [intros [|[|[|[|]]]]; tauto|intros [|[|[|[|]]]]; tauto].
Qed.
Lemma url_length data : (length (base64url data) mod 4 = match length data mod 3 with 0 => 0 | 1 => 2 | _ => 3 end)%nat.
Proof.
  unfold base64url. induction data as [|a|a b|a b c l IH] using three_ind; try reflexivity. cbn [rfc4648 app length]. rewrite mod3_step, <- IH.
  replace (S (S (S (S (length (rfc4648 45 95 [] l)))))) with (length (rfc4648 45 95 [] l) + 1 * 4)%nat by lia. apply Nat.mod_add. lia.
Qed.
Lemma strchr_found s rest : ~ In 61 s -> ~ In 0 s -> strchr (s ++ 61 :: rest) 61 = Ok (Some (length s)).
Proof.
  induction s as [|c s IH]; intros N1 N2; cbn [app strchr]; [reflexivity|].
  destruct (Z.eqb_spec c 61); [exfalso; apply N1; left; auto|]. destruct (Z.eqb_spec c 0); [exfalso; apply N2; left; auto|].
  rewrite IH; [reflexivity| |]; intros K; [apply N1|apply N2]; right; auto.
Qed.
Lemma strchr_nul s rest : ~ In 61 s -> ~ In 0 s -> strchr (s ++ 0 :: rest) 61 = Ok None.
Proof.
  induction s as [|c s IH]; intros N1 N2; cbn [app strchr]; [reflexivity|].
  destruct (Z.eqb_spec c 61); [exfalso; apply N1; left; auto|]. destruct (Z.eqb_spec c 0); [exfalso; apply N2; left; auto|].
  rewrite IH; [reflexivity| |]; intros K; [apply N1|apply N2]; right; auto.
Qed.
Lemma strchr_over s : ~ In 61 s -> ~ In 0 s -> strchr s 61 = UB.
Proof.
  induction s as [|c s IH]; intros N1 N2; cbn [strchr]; [reflexivity|].
  destruct (Z.eqb_spec c 61); [exfalso; apply N1; left; auto|]. destruct (Z.eqb_spec c 0); [exfalso; apply N2; left; auto|].
  rewrite IH; [reflexivity| |]; intros K; [apply N1|apply N2]; right; auto.
Qed.

Section C48.
  Variable encode : list Z -> list Z.
  Variable decode : list Z -> option (list Z).

  (** Provided OpenSSL's base64 is base64: *)
  (** Encoding is RFC 4648's, if the length isn't a multiple of 3 (or, by chance, a NUL
      follows OpenSSL's text). *)
  Theorem C48_encode_partial after data : (forall x, Forall is_byte x -> encode x = base64 x) -> Forall is_byte data ->
    (length data mod 3 <> 0)%nat \/ (exists r, after = 0 :: r) -> base64url_encode encode after data = Ok (base64url data).
  Proof.
    intros HE F C. unfold base64url_encode. rewrite HE by auto. destruct (url_of_std data F) as (s&E&N1&N2&E2). rewrite E. unfold to_base64url.
    destruct (padding data) as [|p] eqn:EP.
    - cbn [repeat]. rewrite !app_nil_r. destruct C as [C|(r&->)].
      + exfalso. unfold padding in EP. destruct (length data mod 3)%nat as [|[|]]; [congruence|discriminate|discriminate].
      + rewrite strchr_nul by auto. cbn [bind]. unfold load.
        destruct (Nat.leb_spec (length s) (length (s ++ 0 :: r))) as [_|K]; [|rewrite app_length in K; lia].
        cbn [bind]. rewrite firstn_app, Nat.sub_diag, firstn_all. cbn [firstn]. rewrite app_nil_r, E2. reflexivity.
    - cbn [repeat]. rewrite <- app_assoc. cbn [app]. rewrite strchr_found by auto. cbn [bind]. unfold load.
      match goal with |- context [(?a <=? ?b)%nat] => destruct (Nat.leb_spec a b) as [_|K] end; [|rewrite app_length in K; lia].
      cbn [bind]. rewrite firstn_app, Nat.sub_diag, firstn_all. cbn [firstn]. rewrite app_nil_r, E2. reflexivity.
  Qed.
  (** Otherwise the text is searched for an '=' it doesn't have, past its end. *)
  Theorem C48_encode_refuted data : (forall x, Forall is_byte x -> encode x = base64 x) -> Forall is_byte data -> (length data mod 3 = 0)%nat ->
    base64url_encode encode [] data = UB /\
    (forall x, ~ In 61 x -> ~ In 0 x -> base64url_encode encode (x ++ [61]) data = Ok (base64url data ++ map to_url x)).
  Proof.
    intros HE F C. unfold base64url_encode. rewrite HE by auto. destruct (url_of_std data F) as (s&E&N1&N2&E2). rewrite E.
    assert (EP : padding data = 0%nat) by (unfold padding; rewrite C; reflexivity). rewrite EP. cbn [repeat]. rewrite !app_nil_r. unfold to_base64url. split.
    - rewrite strchr_over by auto. reflexivity.
    - intros x M1 M2. rewrite app_assoc. rewrite strchr_found by (rewrite in_app_iff; tauto). cbn [bind]. unfold load.
      match goal with |- context [(?a <=? ?b)%nat] => destruct (Nat.leb_spec a b) as [_|K] end; [|rewrite app_length in K; lia].
      cbn [bind]. rewrite firstn_app, Nat.sub_diag, firstn_all. cbn [firstn]. rewrite app_nil_r, map_app, E2. reflexivity.
  Qed.
  (** Decoding what RFC 4648 encodes, of whatever length (but not nothing), yields the
      data. *)
  Theorem C48_decode data : (forall x, Forall is_byte x -> decode (base64 x) = Some x) -> Forall is_byte data -> data <> [] ->
    base64url_decode decode (base64url data) = Some data.
  Proof.
    intros HD F NE. unfold base64url_decode.
    assert (E : map to_std (base64url data) ++ repeat 61 (if 0 <? length (base64url data) mod 4 then 4 - length (base64url data) mod 4 else 0)%nat = base64 data).
    { rewrite std_of_url by auto. do 2 f_equal. rewrite url_length. unfold padding. destruct (length data mod 3)%nat as [|[|]]; reflexivity. }
    rewrite E, HD by auto. destruct data; [congruence|reflexivity].
  Qed.
  Theorem C48_roundtrip_partial after data s : (forall x, Forall is_byte x -> encode x = base64 x) -> (forall x, Forall is_byte x -> decode (base64 x) = Some x) ->
    Forall is_byte data -> (length data mod 3 <> 0)%nat -> base64url_encode encode after data = Ok s -> base64url_decode decode s = Some data.
  Proof.
    intros HE HD F C. rewrite C48_encode_partial by auto. intros H. injection H as <-. apply C48_decode; auto. intros ->. cbn in C. congruence.
  Qed.
End C48.
(** There are such encoder and decoder. *)
Lemma C48_openssl x : Forall is_byte x -> unbase64 (base64 x) = Some x.
Proof.
  unfold base64. induction x as [|a|a b|a b c l IH] using three_ind; intros F; repeat match goal with H : Forall _ (_ :: _) |- _ => inversion H; clear H; subst end;
    repeat match goal with H : is_byte ?a |- _ => let K := fresh "K" in pose proof (byte_parts _ H) as K; revert H end; intros; cbn [rfc4648 app unbase64].
  - reflexivity.
  - rewrite !alpha_value by lia. replace (value 61) with (@None Z) by reflexivity. cbn [Z.eqb Pos.eqb andb]. do 2 f_equal.
    rewrite Z.div_mul by lia. pose proof (Z.div_mod a 4 ltac:(lia)). lia.
  - rewrite !alpha_value by lia. replace (value 61) with (@None Z) by reflexivity. cbn [Z.eqb Pos.eqb andb].
    assert (Q1 : (a mod 4 * 16 + b / 16) / 16 = a mod 4) by (rewrite Z.add_comm, Z.div_add, Z.div_small by lia; lia).
    assert (Q2 : (a mod 4 * 16 + b / 16) mod 16 = b / 16) by (rewrite Z.add_comm, Z.mod_add, Z.mod_small by lia; lia).
    rewrite Q1, Q2. rewrite Z.div_mul by lia. pose proof (Z.div_mod a 4 ltac:(lia)). pose proof (Z.div_mod b 16 ltac:(lia)). f_equal. repeat f_equal; lia.
  - rewrite !alpha_value by lia. rewrite IH by auto. cbn [option_map app].
    assert (Q1 : (a mod 4 * 16 + b / 16) / 16 = a mod 4) by (rewrite Z.add_comm, Z.div_add, Z.div_small by lia; lia).
    assert (Q2 : (a mod 4 * 16 + b / 16) mod 16 = b / 16) by (rewrite Z.add_comm, Z.mod_add, Z.mod_small by lia; lia).
    assert (Q3 : (b mod 16 * 4 + c / 64) / 4 = b mod 16) by (rewrite Z.add_comm, Z.div_add, Z.div_small by lia; lia).
    assert (Q4 : (b mod 16 * 4 + c / 64) mod 4 = c / 64) by (rewrite Z.add_comm, Z.mod_add, Z.mod_small by lia; lia).
    rewrite Q1, Q2, Q3, Q4. pose proof (Z.div_mod a 4 ltac:(lia)). pose proof (Z.div_mod b 16 ltac:(lia)). pose proof (Z.div_mod c 64 ltac:(lia)).
    do 2 f_equal; [lia|]. f_equal; [lia|]. f_equal. lia.
Qed.
Example C48_nonvacuous :
  base64url_encode base64 [7] [251; 255; 190; 1] = Ok (cstr "-_--AQ") /\
  base64url_decode unbase64 (cstr "-_--AQ") = Some [251; 255; 190; 1] /\
  base64url_decode unbase64 (cstr "-_--") = Some [251; 255; 190] /\
  base64url_encode base64 (cstr "ABC=" ++ [0]) [251; 255; 190] = Ok (cstr "-_--ABC").
Proof. repeat split; reflexivity. Qed.

(** * C49: integer options *)
Lemma skip_spaces_ok sp s : Forall (fun c => isspace c = true) sp -> match s with [] => True | c :: _ => isspace c = false end -> skip_spaces (sp ++ s) = s.
Proof.
  intros F H. induction F as [|c sp HC F IH]; cbn [app skip_spaces]; [|rewrite HC; exact IH]. destruct s as [|c s]; [reflexivity|]. cbn [skip_spaces]. rewrite H. reflexivity.
Qed.
Lemma skip_spaces_inv s : exists sp, s = sp ++ skip_spaces s /\ Forall (fun c => isspace c = true) sp /\ match skip_spaces s with [] => True | c :: _ => isspace c = false end.
Proof.
  induction s as [|c s IH]; cbn [skip_spaces]; [exists []; auto|]. destruct (isspace c) eqn:E.
  - destruct IH as (sp&E1&F&H). exists (c :: sp). cbn [app]. split; [congruence|]. split; auto.
  - exists []. repeat split; auto.
Qed.
Lemma digit_iff c : isdigit c = true <-> 48 <= c <= 57.
Proof. unfold isdigit. rewrite andb_true_iff, !Z.leb_le. tauto. Qed.
Lemma digits_ok ds : forall acc n, Forall (fun c => 48 <= c <= 57) ds -> digits acc n ds = (fold_left (fun n c => 10 * n + (c - 48)) ds acc, (n + length ds)%nat, []).
Proof.
  induction ds as [|c ds IH]; intros acc n F; cbn [digits fold_left length]; [rewrite Nat.add_0_r; reflexivity|].
  inversion F; subst. rewrite (proj2 (digit_iff c)) by auto. rewrite IH by auto. do 2 f_equal. lia.
Qed.
Lemma digits_inv s : forall acc n v k, digits acc n s = (v, k, []) -> Forall (fun c => 48 <= c <= 57) s /\ k = (n + length s)%nat /\ v = fold_left (fun n c => 10 * n + (c - 48)) s acc.
Proof.
  induction s as [|c s IH]; intros acc n v k; cbn [digits fold_left length].
  - intros H. injection H as <- <-. repeat split; auto.
  - destruct (isdigit c) eqn:E; [|discriminate]. intros H. apply IH in H. destruct H as (F&->&->). apply digit_iff in E. split; [constructor; auto|]. split; [lia|reflexivity].
Qed.

(** What the reader of numbers takes: spaces, a sign, digits; a minus sign subtracts
    from 2^64. *)
Definition reading (str : list Z) (v : Z) : Prop :=
  exists sp sign ds, str = sp ++ sign ++ ds /\ Forall (fun c => isspace c = true) sp /\ decimal ds /\ number ds <= ULONG_MAX /\
    ((sign = [] \/ sign = [43]) /\ v = number ds \/ sign = [45] /\ v = (- number ds) mod 2 ^ 64).

Lemma number_nonneg ds : Forall (fun c => 48 <= c <= 57) ds -> 0 <= number ds.
Proof.
  unfold number. assert (G : forall a, 0 <= a -> Forall (fun c => 48 <= c <= 57) ds -> 0 <= fold_left (fun n c => 10 * n + (c - 48)) ds a).
  { induction ds as [|c ds IH]; intros a H F; cbn [fold_left]; auto. inversion F; subst. apply IH; auto. lia. }
  apply G. lia.
Qed.

Theorem C49_argv min max str v : 0 <= min -> max <= UINT_MAX ->
  (parse_argv_uint min max str = Ok v <-> reading str v /\ min <= v <= max).
Proof.
  intros Hmin Hmax. unfold parse_argv_uint, strtoul. split.
  - destruct str as [|c0 str0] eqn:ES; [discriminate|]. rewrite <- ES. assert (NE : str <> []) by congruence. clear ES c0 str0.
    destruct (skip_spaces_inv str) as (sp&E1&F&H1). remember (skip_spaces str) as s1 eqn:EQ1. clear EQ1.
    assert (G : exists sign s2 neg, (match s1 with c :: t => if c =? 45 then (true, t) else if c =? 43 then (false, t) else (false, s1) | [] => (false, []) end) = (neg, s2)
      /\ s1 = sign ++ s2 /\ (neg = true /\ sign = [45] \/ neg = false /\ (sign = [] \/ sign = [43]))).
    { destruct s1 as [|c t]; [exists [], [], false; auto 9|]. destruct (Z.eqb_spec c 45) as [->|]; [exists [45], t, true; auto 9|].
      destruct (Z.eqb_spec c 43) as [->|]; [exists [43], t, false; auto 9|exists [], (c :: t), false; auto 9]. }
    destruct G as (sign&s2&neg&EG&E2&HS). rewrite EG.
    destruct (digits 0 0 s2) as [[w n] rest] eqn:ED. destruct n as [|n].
    { destruct str; [congruence|discriminate]. }
    destruct (Z.ltb_spec ULONG_MAX w) as [_|LW]; [discriminate|]. destruct rest as [|]; [|discriminate].
    apply digits_inv in ED. destruct ED as (FD&LN&EW). change (w = number s2) in EW. subst w.
    set (p := if neg then (- number s2) mod (ULONG_MAX + 1) else number s2).
    destruct (Z.ltb_spec p min) as [_|L1]; [discriminate|]. destruct (Z.ltb_spec max p) as [_|L2]; [discriminate|]. cbn [orb]. intros K. injection K as <-.
    assert (WP : wrap32 p = p) by (apply wrap32_id; unfold is_u32, UINT_MAX in *; lia). rewrite WP. split; [|lia].
    exists sp, sign, s2. split; [congruence|]. split; auto. split.
    { split; auto. intros ->. cbn in LN. lia. }
    split; auto. unfold p. destruct HS as [[-> ->]|[-> HS]]; [right; auto|left; auto].
  - intros ((sp&sign&ds&->&F&(ND&FD)&LU&HV)&R).
    assert (NE : sp ++ sign ++ ds <> []) by (destruct sp, sign, ds; cbn; congruence).
    destruct (sp ++ sign ++ ds) as [|c0 s0] eqn:ES; [congruence|]. rewrite <- ES. clear NE ES c0 s0.
    assert (SS : skip_spaces (sp ++ sign ++ ds) = sign ++ ds).
    { apply skip_spaces_ok; auto. destruct HV as [[[->| ->] _]|[-> _]]; try reflexivity. cbn [app]. destruct ds as [|c ds]; auto. inversion FD; subst.
      unfold isspace. destruct (Z.eqb_spec c 32), (Z.leb_spec 9 c), (Z.leb_spec c 13); try lia; reflexivity. }
    rewrite SS.
    assert (GD : forall (neg : bool), 
      (let '(parsed, erange, tmp) := (let '(v, n, rest) := digits 0 0 ds in
         match n with O => (0, false, sp ++ sign ++ ds) | S _ => if ULONG_MAX <? v then (ULONG_MAX, true, rest) else (if neg then (- v) mod (ULONG_MAX + 1) else v, false, rest) end)
       in if (erange : bool) then Err EINVAL else match tmp with _ :: _ => Err EINVAL | [] => if (parsed <? min) || (max <? parsed) then Err EINVAL else Ok (wrap32 parsed) end)
      = (let p := if neg then (- number ds) mod (ULONG_MAX + 1) else number ds in if (p <? min) || (max <? p) then Err EINVAL else Ok (wrap32 p))).
    { intros neg. rewrite digits_ok by auto. change (fold_left (fun n c => 10 * n + (c - 48)) ds 0) with (number ds).
      destruct ds as [|c ds]; [congruence|]. cbn [length Nat.add]. destruct (Z.ltb_spec ULONG_MAX (number (c :: ds))); [lia|]. reflexivity. }
    assert (FIN : forall p, p = v -> (if (p <? min) || (max <? p) then Err EINVAL else Ok (wrap32 p)) = Ok v).
    { intros p ->. destruct (Z.ltb_spec v min); [lia|]. destruct (Z.ltb_spec max v); [lia|]. cbn [orb]. f_equal. apply wrap32_id. unfold is_u32, UINT_MAX in *. lia. }
    destruct HV as [[[->| ->] EV]|[-> EV]]; cbn [app Z.eqb Pos.eqb].
    + assert (HD : (match ds with c :: t => if c =? 45 then (true, t) else if c =? 43 then (false, t) else (false, ds) | [] => (false, []) end) = (false, ds)).
      { destruct ds as [|c ds]; [congruence|]. inversion FD; subst. destruct (Z.eqb_spec c 45); [lia|]. destruct (Z.eqb_spec c 43); [lia|]. reflexivity. }
      rewrite HD. etransitivity; [apply (GD false)|]. cbv zeta. apply FIN. auto.
    + etransitivity; [apply (GD false)|]. cbv zeta. apply FIN. auto.
    + etransitivity; [apply (GD true)|]. cbv zeta. apply FIN. auto.
Qed.
(** So digits are taken iff they write a number within the bounds, and it's that one. *)
Theorem C49_decimal min max str v : 0 <= min -> max <= UINT_MAX -> decimal str ->
  (parse_argv_uint min max str = Ok v <-> v = number str /\ min <= v <= max).
Proof.
  intros H1 H2 D. rewrite C49_argv by auto. split.
  - intros ((sp&sign&ds&->&F&D'&LU&HV)&R). split; auto.
    assert (NS : forall x y, decimal (x ++ y) -> Forall (fun c => isspace c = true) x -> x = []).
    { intros [|c x] y [_ FD] FS; auto. exfalso. cbn [app] in FD. inversion FD; inversion FS; subst. unfold isspace in *. destruct (Z.eqb_spec c 32), (Z.leb_spec 9 c), (Z.leb_spec c 13); try lia; discriminate. }
    pose proof (NS _ _ D F) as ->. cbn [app] in *. destruct D as [_ FD]. destruct HV as [[[->| ->] EV]|[-> EV]]; auto; exfalso; cbn in FD; inversion FD; lia.
  - intros [-> R]. split; auto. exists [], [], str. pose proof (number_nonneg str (proj2 D)). split; [reflexivity|]. split; [constructor|]. split; [exact D|]. split; [unfold UINT_MAX, ULONG_MAX in *; lia|left; auto].
Qed.
(** But so are other texts: "-18446744073709551615" is 1. *)
Theorem C49_negative_refuted min max : 0 <= min <= 1 -> 1 <= max <= UINT_MAX -> parse_argv_uint min max (cstr "-18446744073709551615") = Ok 1.
Proof.
  intros H1 H2. apply C49_argv; try lia. split; [|lia]. exists [], [45], (cstr "18446744073709551615").
  split; [reflexivity|]. split; [constructor|]. split; [split; [discriminate|]|split].
  - cbn. repeat constructor; discriminate.
  - vm_compute. discriminate.
  - right. split; [reflexivity|]. vm_compute. reflexivity.
Qed.
(** In the configuration file: integers within the bounds, and nothing else. *)
Theorem C49_json min max value v : 0 <= min -> max <= UINT_MAX ->
  (parse_json_uint min max value = Ok v <-> value = Some v /\ min <= v <= max).
Proof.
  intros H1 H2. unfold parse_json_uint. destruct value as [w|]; [|split; [discriminate|intros [K _]; discriminate]].
  destruct (Z.ltb_spec w min); cbn [orb]; [split; [discriminate|intros [K ?]; injection K as ->; lia]|].
  destruct (Z.ltb_spec max w); [split; [discriminate|intros [K ?]; injection K as ->; lia]|].
  rewrite wrap32_id by (unfold is_u32, UINT_MAX in *; lia). split; [intros K; injection K as <-; split; [auto|lia]|]. intros [K _]. injection K as ->. reflexivity.
Qed.
Example C49_nonvacuous :
  parse_argv_uint 60 86400 (cstr "3600") = Ok 3600 /\ parse_argv_uint 60 86400 (cstr "59") = Err EINVAL /\ parse_argv_uint 60 86400 (cstr "86401") = Err EINVAL /\
  parse_argv_uint 60 86400 (cstr "3600s") = Err EINVAL /\ parse_argv_uint 0 4294967295 (cstr "4294967296") = Err EINVAL /\ parse_json_uint 60 86400 (Some (-1)) = Err EINVAL.
Proof. repeat split; reflexivity. Qed.
