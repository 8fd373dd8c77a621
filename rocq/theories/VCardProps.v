(** * C89: Ghostbusters records *)
From Coq Require Import String.
From Verif Require Import Base BaseLemmas CString VCard VCardSpec VCardProofs.
Notation length := List.length.

(** ** Whatever bytes the record has, no memory is misused, and it is accepted if and only if it is the vCard the program asks for. *)
Theorem C89_vcard : forall text, handle_ghostbusters_vcard text <> UB /\ (handle_ghostbusters_vcard text = Ok tt <-> good_vcard text).
Proof.
  intros text. unfold handle_ghostbusters_vcard. cbv zeta.
  assert (NO: forall r : res unit, r = Err EINVAL -> ~ good_vcard text -> r <> UB /\ (r = Ok tt <-> good_vcard text)) by (intros r -> N; split; [discriminate|]; split; [discriminate|contradiction]).
  assert (V0: repeat (@None Z) 81 <> []) by discriminate.
  destruct (line_next_spec text {| vl_val := repeat None 81; vl_len := 0; vl_offset := 0 |} ltac:(cbn; lia) V0) as [(l1 & w1 & r1 & -> & R1 & T1 & O1)|(-> & N)]; cbn [bind vl_offset skipn] in *.
  2:{ apply NO; [reflexivity|]. intros (f & v & ps & e & L & _). inversion L; subst. eapply N; eassumption. }
  assert (X1: forall f rest, lines_of text (f :: rest) -> f = w1 /\ lines_of r1 rest) by (intros f rest L; inversion L as [|? ? ? ? R L']; subst; destruct (reads_func _ _ _ R1 _ _ R) as (<- & <-); auto).
  destruct (validate_spec l1 w1 (cstr "BEGIN:VCARD") T1 ltac:(apply positive; reflexivity)) as [(-> & S1)|(-> & S1)]; cbn [bind].
  2:{ apply NO; [reflexivity|]. intros (f & v & ps & e & L & S & _). destruct (X1 _ _ L) as (-> & _). contradiction. }
  destruct (line_next_spec text l1 ltac:(lia) (terminated_nonempty _ _ T1)) as [(l2 & w2 & r2 & -> & R2 & T2 & O2)|(-> & N)]; cbn [bind].
  all: assert (Sk1: skipn (vl_offset l1) text = r1) by (rewrite O1; apply (rest_skip text 0 w1); exact R1); rewrite Sk1 in *.
  2:{ apply NO; [reflexivity|]. intros (f & v & ps & e & L & _). destruct (X1 _ _ L) as (_ & L2). inversion L2; subst. eapply N; eassumption. }
  assert (Sk2: skipn (vl_offset l2) text = r2) by (rewrite O2; apply (rest_skip text (vl_offset l1) w2); rewrite Sk1; exact R2).
  assert (X2: forall f v rest, lines_of text (f :: v :: rest) -> f = w1 /\ v = w2 /\ lines_of r2 rest).
  { intros f v rest L. destruct (X1 _ _ L) as (-> & L2). inversion L2 as [|? ? ? ? R L']; subst. destruct (reads_func _ _ _ R2 _ _ R) as (<- & <-). auto. }
  destruct (validate_spec l2 w2 (cstr "VERSION:4.0") T2 ltac:(apply positive; reflexivity)) as [(-> & S2)|(-> & S2)]; cbn [bind].
  2:{ apply NO; [reflexivity|]. intros (f & v & ps & e & L & _ & S & _). destruct (X2 _ _ _ L) as (_ & -> & _). contradiction. }
  assert (ENDS: forall e, same e (cstr "END:VCARD") -> ends e).
  { intros e S. exists (firstn 4 e), (skipn 4 e). split; [symmetry; apply firstn_skipn|]. unfold same in *. rewrite <- firstn_map, S. reflexivity. }
  destruct (property_loop_spec (S (length text)) text l2 false false ltac:(rewrite skipn_length; lia) ltac:(lia) (terminated_nonempty _ _ T2)) as [(l3 & fn & us & ps & e & r3 & -> & M & F & En & T3 & O3 & H1 & H2)|(-> & N)]; cbn [bind]; rewrite Sk2 in *.
  2:{ apply NO; [reflexivity|]. intros (f & v & ps & e & L & _ & _ & S & F & _). destruct (X2 _ _ _ L) as (_ & _ & L2). apply many_lines in L2. eapply N; [exact L2|exact F|apply ENDS; exact S]. }
  assert (X3: forall f v ps' e', lines_of text (f :: v :: ps' ++ [e']) -> Forall (fun l => names_someone l \/ tells_how l) ps' -> same e' (cstr "END:VCARD") -> f = w1 /\ v = w2 /\ ps' = ps /\ e' = e /\ r3 = []).
  { intros f v ps' e' L F' S'. destruct (X2 _ _ _ L) as (-> & -> & L2). apply many_lines in L2. destruct (many_split _ _ _ _ L2 F' (ENDS _ S') _ _ _ M F En) as (-> & -> & <-). auto. }
  destruct (validate_spec l3 e (cstr "END:VCARD") T3 ltac:(apply positive; reflexivity)) as [(-> & S3)|(-> & S3)]; cbn [bind].
  2:{ apply NO; [reflexivity|]. intros (f & v & ps' & e' & L & _ & _ & S & F' & _). destruct (X3 _ _ _ _ L F' S) as (_ & _ & _ & -> & _). contradiction. }
  assert (Len: (length r3 <= length text)%nat).
  { clear - M R1 R2. assert (A: forall t ls r, many t ls r -> (length r <= length t)%nat) by (induction 1 as [|t l rest ls r R _ IH]; [lia|]; pose proof (reads_length _ _ _ R); lia). pose proof (A _ _ _ M). pose proof (reads_length _ _ _ R1). pose proof (reads_length _ _ _ R2). lia. }
  destruct (Nat.eqb_spec (length text) (vl_offset l3)) as [E|E]; cbn [negb].
  2:{ apply NO; [reflexivity|]. intros (f & v & ps' & e' & L & _ & _ & S & F' & _). destruct (X3 _ _ _ _ L F' S) as (_ & _ & _ & _ & ->). cbn in O3. lia. }
  destruct r3 as [|? ?]; [|cbn in O3, Len; lia].
  destruct fn; cbn [negb]; [|apply NO; [reflexivity|]; intros (f & v & ps' & e' & L & _ & _ & S & F' & Q & _); destruct (X3 _ _ _ _ L F' S) as (_ & _ & -> & _); assert (false = true) by (apply H1; auto); discriminate].
  destruct us; cbn [negb]; [|apply NO; [reflexivity|]; intros (f & v & ps' & e' & L & _ & _ & S & F' & _ & Q); destruct (X3 _ _ _ _ L F' S) as (_ & _ & -> & _); assert (false = true) by (apply H2; auto); discriminate].
  split; [discriminate|]. split; [intros _|reflexivity]. exists w1, w2, ps, e.
  split; [econstructor; [exact R1|]; econstructor; [exact R2|]; apply many_lines; exact M|]. split; [exact S1|]. split; [exact S2|]. split; [exact S3|]. split; [exact F|].
  destruct (proj1 H1 eq_refl) as [K|K]; [discriminate|]. destruct (proj1 H2 eq_refl) as [K2|K2]; [discriminate|]. auto.
Qed.
Print Assumptions C89_vcard.

Definition line (s : string) : list Z := cstr s ++ [13; 10].
Definition example_vcard : list Z := line "BEGIN:VCARD" ++ line "VERSION:4.0" ++ cstr "fn:Jane" ++ [13; 10; 32] ++ line " Doe" ++ line "EMAIL:jane@example.com" ++ line "END:VCard".
Example C89_example : handle_ghostbusters_vcard example_vcard = Ok tt.
Proof. vm_compute. reflexivity. Qed.
Example C89_example_long : handle_ghostbusters_vcard (line "BEGIN:VCARD" ++ line "VERSION:4.0" ++ cstr "FN:" ++ repeat 120 1000 ++ [13; 10] ++ line "ORG:x" ++ line "END:VCARD") = Ok tt.
Proof. vm_compute. reflexivity. Qed.

(** ** False: that every vCard of RFC 6493 is accepted.  "TEL:" and "ADR:" (without parameters), or "ORG;..." and "FN;..." (with them) aren't. *)
Theorem C89_rfc6493_refuted : exists text, rfc6493_vcard text /\ handle_ghostbusters_vcard text = Err EINVAL.
Proof.
  exists (line "BEGIN:VCARD" ++ line "VERSION:4.0" ++ line "FN:Jane" ++ line "TEL:+1-666-555-1212" ++ line "END:VCARD"). split; [|vm_compute; reflexivity].
  assert (RL: forall s rest, ~ begins_with blank rest -> ~ In 13 s -> reads (s ++ 13 :: 10 :: rest) s rest).
  { intros s rest N. induction s as [|c s IH]; intros I; cbn [app]; [constructor; exact N|]. constructor; [intros (-> & _); apply I; left; reflexivity|]. apply IH. intros J. apply I. right. exact J. }
  exists [cstr "FN:Jane"; cstr "TEL:+1-666-555-1212"]. split.
  - unfold line. rewrite <- !app_assoc. cbn [app]. repeat (eapply lines_cons; [apply RL; [vm_compute; intuition discriminate|vm_compute; intuition discriminate]|]). apply lines_nil.
  - assert (A: property (cstr "FN") (cstr "FN:Jane")) by (exists [], (cstr "Jane"); split; [auto|]; exists (cstr "FN"); split; reflexivity).
    assert (B: property (cstr "TEL") (cstr "TEL:+1-666-555-1212")) by (exists [], (cstr "+1-666-555-1212"); split; [auto|]; exists (cstr "TEL"); split; reflexivity).
    split; [|split; [left; exact A|right; left; exists (cstr "TEL"); split; [right; right; left; reflexivity|exact B]]].
    apply Forall_cons; [exists (cstr "FN"); split; [left; reflexivity|exact A]|]. apply Forall_cons; [exists (cstr "TEL"); split; [do 3 right; left; reflexivity|exact B]|apply Forall_nil].
Qed.
Print Assumptions C89_rfc6493_refuted.
