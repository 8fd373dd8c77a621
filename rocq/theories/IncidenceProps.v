(** * C88: incidences lead to what the configuration says *)
From Coq Require Import String.
From Verif Require Import Base BaseLemmas CString Slurm Manifest Incidence IncidenceSpec.
Notation length := List.length.

Definition kinds : list kind := [HashalgHasParams; ObjNotDer; FileNotFound; HashNotMatch; MftStale; CrlStale].
Definition table (f : kind -> action) : list incidence_t := map (fun k => {| in_name := documented_name k; in_default := documented_default k; in_action := f k |}) kinds.
Lemma kind_dec (a b : kind) : {a = b} + {a <> b}.
Proof. decide equality. Defined.
Definition change (f : kind -> action) (k : kind) (a : action) : kind -> action := fun k' => if kind_dec k' k then a else f k'.
Lemma init_table : incidence_init incidences = table documented_default.
Proof. reflexivity. Qed.
Lemma get_table f k : incidence_get_action (table f) (id k) = Ok (f k).
Proof. destruct k; reflexivity. Qed.

Lemma names_eq k k' : documented_name k = documented_name k' -> k = k'.
Proof. destruct k, k'; intros H; try reflexivity; discriminate H. Qed.
Lemma zeqb_spec (x y : Z) : Z.eqb x y = true <-> x = y. Proof. apply Z.eqb_eq. Qed.
Lemma seqb a b : list_eqb Z.eqb a b = true <-> a = b.
Proof. apply (list_eqb_spec Z.eqb zeqb_spec). Qed.
Lemma name2id_spec f name : match name2id (table f) name with Ok n => exists k, name = documented_name k /\ n = id k | Err _ => forall k, name <> documented_name k | UB => False end.
Proof.
  unfold name2id, table, kinds. cbn [map name2id_from in_name].
  repeat match goal with |- context [if list_eqb Z.eqb name (documented_name ?k) then _ else _] =>
    let E := fresh "E" in destruct (list_eqb Z.eqb name (documented_name k)) eqn:E; [apply seqb in E; exists k; split; [exact E|reflexivity]|] end.
  intros k K. subst name. destruct k; rewrite (proj2 (seqb _ _) eq_refl) in *; discriminate.
Qed.
Lemma update_table f k a : exists i, nth_error (table f) (id k) = Some i /\ upd (table f) (id k) (set_action i a) = table (change f k a).
Proof. destruct k; eexists; (split; [reflexivity|]); reflexivity. Qed.

Lemma init_action_spec f j : match init_action (table f) j with
  | Ok l => exists k a, says j k a /\ l = table (change f k a)
  | Err _ => ~ sensible j
  | UB => False end.
Proof.
  unfold init_action, json_get_str, sensible, says.
  destruct (json_object_get j (cstr "name")) as [[| |name| | |]|] eqn:En; cbn [bind]; try (intros (k & a & K & _); discriminate K).
  pose proof (name2id_spec f name) as N. destruct (name2id (table f) name) as [n|e|]; cbn [bind]; [|intros (k & a & K & _); injection K as K; exact (N k K)|exact N].
  destruct N as (k & -> & ->).
  destruct (json_object_get j (cstr "action")) as [[| |w| | |]|] eqn:Ea; cbn [bind]; try (intros (k' & a & _ & K); discriminate K).
  destruct (update_table f k INAC_IGNORE) as (i & Hi & _). rewrite Hi.
  assert (U: forall a, upd (table f) (id k) (set_action i a) = table (change f k a)) by (intros a; destruct (update_table f k a) as (i' & Hi' & Ua); rewrite Hi in Hi'; injection Hi' as <-; exact Ua).
  destruct (list_eqb Z.eqb (cstr "ignore") w) eqn:W1; [apply seqb in W1; subst w; cbn [bind]; exists k, INAC_IGNORE; auto|].
  destruct (list_eqb Z.eqb (cstr "warn") w) eqn:W2; [apply seqb in W2; subst w; cbn [bind]; exists k, INAC_WARN; auto|].
  destruct (list_eqb Z.eqb (cstr "error") w) eqn:W3; [apply seqb in W3; subst w; cbn [bind]; exists k, INAC_ERROR; auto|].
  cbn [bind]. intros (k' & a & _ & K). injection K as K. subst w. destruct a; cbn [documented_action] in *; [clear - W1|clear - W2|clear - W3]; rewrite (proj2 (seqb _ _) eq_refl) in *; discriminate.
Qed.
Lemma init_action_says f j k a : says j k a -> init_action (table f) j = Ok (table (change f k a)).
Proof.
  intros (A & B). unfold init_action, json_get_str. rewrite A, B. cbn [bind]. pose proof (name2id_spec f (documented_name k)) as N.
  destruct (name2id (table f) (documented_name k)) as [n|e|]; [|destruct (N k eq_refl)|destruct N]. destruct N as (k' & E & ->). apply names_eq in E. subst k'. cbn [bind].
  destruct (update_table f k a) as (i & Hi & U). rewrite Hi. destruct a; cbn [documented_action]; rewrite <- U.
  - rewrite (proj2 (seqb _ _) eq_refl). reflexivity.
  - replace (list_eqb Z.eqb (cstr "ignore") (cstr "warn")) with false by reflexivity. rewrite (proj2 (seqb _ _) eq_refl). reflexivity.
  - replace (list_eqb Z.eqb (cstr "ignore") (cstr "error")) with false by reflexivity. replace (list_eqb Z.eqb (cstr "warn") (cstr "error")) with false by reflexivity. rewrite (proj2 (seqb _ _) eq_refl). reflexivity.
Qed.

Lemma conf_func k b js a1 : configured k b js a1 -> forall a2, configured k b js a2 -> a1 = a2.
Proof.
  assert (D: forall j k1 c1 k2 c2, says j k1 c1 -> says j k2 c2 -> k1 = k2 /\ c1 = c2).
  { intros j k1 c1 k2 c2 (A & B) (C & E). rewrite A in C. injection C as C. apply names_eq in C. rewrite B in E. injection E as E. split; [exact C|]. destruct c1, c2; try reflexivity; discriminate E. }
  induction 1 as [|js j a b' C IH S|js j k' a b' C IH S N]; intros a2 H.
  - inversion H as [|js2 j2 ? ? ? ? E|js2 j2 ? ? ? ? ? ? E]; [reflexivity|destruct js2; discriminate E|destruct js2; discriminate E].
  - inversion H as [E|js2 j2 a' ? ? S' E|js2 j2 k2 ? ? ? S' N' E]; [destruct js; discriminate E| |]; apply app_inj_tail in E; destruct E as (-> & ->); destruct (D _ _ _ _ _ S S'); congruence.
  - inversion H as [E|js2 j2 a' ? ? S' E|js2 j2 k2 ? ? C' S' N' E]; [destruct js; discriminate E| |]; apply app_inj_tail in E; destruct E as (-> & ->); [destruct (D _ _ _ _ _ S S'); congruence|apply IH; exact C'].
Qed.

Lemma update_loop_spec : forall js2 js1 f0 f, (forall k, configured k (f0 k) js1 (f k)) ->
  (exists g, update_loop (table f) js2 = Ok (table g, 0) /\ Forall sensible js2 /\ forall k, configured k (f0 k) (js1 ++ js2) (g k)) \/
  (exists g a j b, update_loop (table f) js2 = Ok (table g, -22) /\ js2 = a ++ j :: b /\ Forall sensible a /\ ~ sensible j /\ forall k, configured k (f0 k) (js1 ++ a) (g k)).
Proof.
  induction js2 as [|j js2 IH]; intros js1 f0 f C; cbn [update_loop].
  - left. exists f. rewrite app_nil_r. auto.
  - pose proof (init_action_spec f j) as A. destruct (init_action (table f) j) as [l|e|]; [|right; exists f, [], j, js2; rewrite app_nil_r; auto|destruct A].
    destruct A as (k & a & S & ->). assert (C': forall k', configured k' (f0 k') (js1 ++ [j]) (change f k a k')).
    { intros k'. unfold change. destruct (kind_dec k' k) as [->|N]; [eapply conf_says; [apply C|exact S]|eapply conf_other; [apply C|exact S|congruence]]. }
    destruct (IH (js1 ++ [j]) f0 (change f k a) C') as [(g & E & F & G)|(g & x & j' & y & E & -> & F & N & G)].
    + left. exists g. rewrite <- app_assoc in G. split; [exact E|]. split; [constructor; [exists k, a; exact S|exact F]|exact G].
    + right. exists g, (j :: x), j', y. rewrite <- app_assoc in G. split; [exact E|]. split; [reflexivity|]. split; [constructor; [exists k, a; exact S|exact F]|]. auto.
Qed.

(** ** Without configuration, incidences lead to what the documentation says. *)
Theorem C88_defaults : forall k, incidence_get_action (incidence_init incidences) (id k) = Ok (documented_default k).
Proof. intros k. rewrite init_table. apply get_table. Qed.
Print Assumptions C88_defaults.

(** ** The configuration is accepted if and only if it is an array of sensible elements; and then each incidence leads to the last thing said of it, or else to its default. *)
Theorem C88_configuration : forall j, exists l e, incidence_update (incidence_init incidences) j = Ok (l, e) /\
  (e = 0 <-> exists js, j = JArr js /\ Forall sensible js) /\
  (e = 0 -> forall js k, j = JArr js -> exists a, incidence_get_action l (id k) = Ok a /\ forall a', configured k (documented_default k) js a' <-> a' = a).
Proof.
  intros j. rewrite init_table. destruct j as [m|js|s|n|b|]; try (eexists; exists (-22); split; [reflexivity|]; split; [split; [discriminate|intros (js & K & _); discriminate K]|discriminate]).
  destruct (update_loop_spec js [] documented_default documented_default (fun k => conf_none _ _)) as [(g & E & F & C)|(g & a & j & b & E & -> & F & N & C)]; cbn [app] in C.
  - exists (table g), 0. split; [exact E|]. split; [split; [intros _; exists js; auto|reflexivity]|]. intros _ js' k Ej. injection Ej as <-. exists (g k). split; [apply get_table|].
    intros a'. split; [intros K; exact (conf_func _ _ _ _ K _ (C k))|intros ->; apply C].
  - exists (table g), (-22). split; [exact E|]. split; [|discriminate]. split; [discriminate|]. intros (js & Ej & K). injection Ej as <-. apply Forall_app in K. destruct K as (_ & K). inversion K; contradiction.
Qed.
Print Assumptions C88_configuration.

(** ** An incidence fails the validation of the object if and only if its action is "error". *)
Theorem C88_effect : forall js l k a, incidence_update (incidence_init incidences) (JArr js) = Ok (l, 0) -> configured k (documented_default k) js a ->
  exists e, incidence_of l (id k) = Ok e /\ (e <> 0 <-> a = INAC_ERROR).
Proof.
  intros js l k a H C. destruct (C88_configuration (JArr js)) as (l' & e' & H' & _ & K). rewrite H in H'. injection H' as <- <-. destruct (K eq_refl js k eq_refl) as (a' & G & Q). apply Q in C. subst a'.
  unfold incidence_of. rewrite G. cbn [bind]. exists (incidence a). split; [reflexivity|]. destruct a; cbn; intuition congruence.
Qed.
Print Assumptions C88_effect.
Example C88_example :
  let o n a := JObj [(cstr "name", JStr (cstr n)); (cstr "action", JStr (cstr a))] in
  let js := [o "incid-mft-stale" "warn"; o "incid-hashalg-has-params" "error"; o "incid-mft-stale" "ignore"]%string in
  exists l, incidence_update (incidence_init incidences) (JArr js) = Ok (l, 0) /\ configured MftStale (documented_default MftStale) js INAC_IGNORE /\
    incidence_of l (id MftStale) = Ok 0 /\ incidence_of l (id HashalgHasParams) = Ok (-22) /\ incidence_of l (id CrlStale) = Ok (-22).
Proof.
  cbv zeta. eexists. split; [vm_compute; reflexivity|]. split.
  - eapply (conf_says _ _ [_; _]); [|split; reflexivity]. eapply (conf_other _ _ [_] _ HashalgHasParams INAC_ERROR); [|split; reflexivity|discriminate]. eapply (conf_says _ _ [] _ INAC_WARN); [constructor|split; reflexivity].
  - vm_compute. auto.
Qed.
