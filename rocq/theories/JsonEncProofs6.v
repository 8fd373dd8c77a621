(** Every part of a signed object (JsonEnc.v) is shown as JsonEncSpec2.v says. *)
From Coq Require Import String Lia.
From Verif Require Import Base BaseLemmas PduWireSpec CString Slurm Oid Ntop NtopSpec NtopProofs Address AddressSpec AddressProofs ResourcesSpec Roa Manifest ManifestSpec.
From Verif Require Import BerSpec BerProofs Asn1Dec Asn1Types Asn1DecSpec Asn1DecProofs6 Asn1DecProofs7 Asn1DecProofs9 Asn1DecProps Asn1CheckSpec Asn1CheckProofs ObjectsSpec ObjectsProofs ObjectsProofs2 ObjectsProofs4 ObjectsProofs5.
From Verif Require Import JsonEnc JsonEncSpec JsonEncSpec2 JsonEncProofs JsonEncProofs2 JsonEncProofs3 JsonEncProofs4 JsonEncProofs5.
Notation length := List.length.
Open Scope list_scope.
Open Scope Z_scope.

Definition names_of (jms : list (list Z * bool * option value * jty)) : list (list Z) := map (fun m => fst (fst (fst m))) jms.
Fixpoint distinct (l : list (list Z)) : bool :=
  match l with [] => true | x :: l => negb (existsb (list_eqb Z.eqb x) l) && distinct l end.
Lemma distinct_cons x l : distinct (x :: l) = true -> ~ In x l /\ distinct l = true.
Proof.
  cbn [distinct]. intros H. apply andb_prop in H. destruct H as (H1 & H2). split; [|assumption]. intros Hin.
  apply Bool.negb_true_iff in H1. rewrite <- Bool.not_true_iff_false in H1. apply H1. apply existsb_exists. exists x. split; [assumption|]. apply list_eqb_spec; [exact Z.eqb_eq|reflexivity].
Qed.
Lemma set_new m name v : ~ In name (map fst m) -> json_object_set m name v = m ++ [(name, v)].
Proof.
  induction m as [|(k & x) m IH]; intros H; [reflexivity|]. cbn [json_object_set]. destruct (list_eqb Z.eqb k name) eqn:E.
  - apply list_eqb_spec in E; [|exact Z.eqb_eq]. exfalso. apply H. left. exact E.
  - rewrite IH; [reflexivity|]. intros K. apply H. right. exact K.
Qed.
Lemma outcome_impl r (P Q : json -> Prop) : (forall j, P j <-> Q j) -> outcome r P -> outcome r Q.
Proof. intros H O. destruct r as [j|e|]; cbn [outcome] in *; [apply H; assumption| |assumption]. intros j K. apply (O j). apply H. assumption. Qed.

Section Generic.
  Variable oid_name : list Z -> option (list Z).
  Variable pivot : Z.
  Notation disp := (displays oid_name pivot).
  Definition renders (j : jty) (t : ty) (d : shown) : Prop := forall v, shaped t v -> outcome (encode_json j (Some v)) (disp d v).

  Definition struct_shows := fix members (ms : list (string * presence * shown)) (vs : list (option value)) (fields : list (list Z * json)) : Prop :=
    match ms, vs with
    | [], [] => fields = []
    | (name, p, t) :: ms, v :: vs =>
        match v, p with
        | Some v, _ | None, Default v => exists j rest, fields = (cstr name, j) :: rest /\ disp t v j /\ members ms vs rest
        | None, Optional => members ms vs fields
        | None, Required => False
        end
    | _, _ => False
    end.
  Lemma disp_struct ms v j : disp (Struct ms) v j <-> exists vs fields, v = VSeq vs /\ j = JObj fields /\ struct_shows ms vs fields.
  Proof. reflexivity. Qed.

  Inductive rm : list (list Z * bool * option value * jty) -> list member -> list (string * presence * shown) -> Prop :=
  | rm_nil : rm [] [] []
  | rm_req name o z j tag mode any t p d jms ms ds : renders j t d -> rm jms ms ds ->
      rm ((cstr name, o, z, j) :: jms) (Member tag mode 0 any t :: ms) ((name, p, d) :: ds)
  | rm_opt name j tag mode opt any t d jms ms ds : renders j t d -> rm jms ms ds ->
      rm ((cstr name, true, None, j) :: jms) (Member tag mode opt any t :: ms) ((name, Optional, d) :: ds)
  | rm_def name o z j tag mode opt any t d jms ms ds : renders j t d -> outcome (encode_json j (Some z)) (disp d z) -> rm jms ms ds ->
      rm ((cstr name, o, Some z, j) :: jms) (Member tag mode opt any t :: ms) ((name, Default z, d) :: ds).

  Lemma members_spec jms ms ds : rm jms ms ds -> distinct (names_of jms) = true ->
    forall vs acc, shaped_members ms vs -> (forall n, In n (names_of jms) -> ~ In n (map fst acc)) ->
    match members jms vs acc with
    | Ok r => exists fields, r = acc ++ fields /\ struct_shows ds vs fields
    | Err _ => forall fields, ~ struct_shows ds vs fields
    | UB => False
    end.
  Proof.
    (* one member which is there *)
    assert (step : forall name j d v jms ds vs acc, outcome (encode_json j (Some v)) (disp d v) ->
      ~ In (cstr name) (names_of jms) -> (forall n, In n (cstr name :: names_of jms) -> ~ In n (map fst acc)) ->
      (forall acc, (forall n, In n (names_of jms) -> ~ In n (map fst acc)) ->
        match members jms vs acc with Ok r => exists fields, r = acc ++ fields /\ struct_shows ds vs fields | Err _ => forall fields, ~ struct_shows ds vs fields | UB => False end) ->
      match (match json_object_add acc (cstr name) (encode_json j (Some v)) with Ok acc => members jms vs acc | Err e => Err e | UB => UB end) with
      | Ok r => exists fields, r = acc ++ fields /\ exists j rest, fields = (cstr name, j) :: rest /\ disp d v j /\ struct_shows ds vs rest
      | Err _ => forall fields, ~ exists j rest, fields = (cstr name, j) :: rest /\ disp d v j /\ struct_shows ds vs rest
      | UB => False
      end).
    { intros name j d v jms' ds' vs acc O Hn Hacc IH. destruct (encode_json j (Some v)) as [x|e|]; cbn [outcome json_object_add] in *; [| |contradiction].
      - rewrite set_new by (apply Hacc; left; reflexivity).
        assert (Hacc' : forall n, In n (names_of jms') -> ~ In n (map fst (acc ++ [(cstr name, x)]))).
        { intros n Hin K. rewrite map_app in K. apply in_app_or in K. destruct K as [K|[K|[]]]; [eapply Hacc; [right; exact Hin|exact K]|]. cbn [fst] in K. subst n. contradiction. }
        specialize (IH _ Hacc'). destruct (members jms' vs (acc ++ [(cstr name, x)])) as [r|e|]; [| |contradiction].
        + destruct IH as (fields & -> & F). exists ((cstr name, x) :: fields). rewrite <- app_assoc. split; [reflexivity|]. exists x, fields. repeat split; assumption.
        + intros fields (y & rest & _ & _ & F). eapply IH; eassumption.
      - intros fields (y & rest & _ & D & _). eapply O; eassumption. }
    intros R. induction R as [|name o z j tag mode any t p d jms ms ds Hj Hr IH|name j tag mode opt any t d jms ms ds Hj Hr IH|name o z j tag mode opt any t d jms ms ds Hj Hz Hr IH]; intros Hd vs acc Hs Hacc.
    - destruct vs; [|contradiction]. cbn [members]. exists []. rewrite app_nil_r. split; reflexivity.
    - change (names_of ((cstr name, o, z, j) :: jms)) with (cstr name :: names_of jms) in *. apply distinct_cons in Hd. destruct Hd as (Hn & Hd).
      destruct vs as [|[v|] vs]; cbn [shaped_members] in Hs; [contradiction| |destruct Hs; lia]. destruct Hs as (H1 & H2). cbn [members struct_shows].
      apply step; [apply Hj; assumption|assumption|assumption|]. intros acc' Ha. apply IH; assumption.
    - change (names_of ((cstr name, true, None, j) :: jms)) with (cstr name :: names_of jms) in *. apply distinct_cons in Hd. destruct Hd as (Hn & Hd).
      destruct vs as [|[v|] vs]; cbn [shaped_members] in Hs; [contradiction| |]; destruct Hs as (H1 & H2); cbn [members struct_shows].
      + apply step; [apply Hj; assumption|assumption|assumption|]. intros acc' Ha. apply IH; assumption.
      + apply IH; [assumption|assumption|]. intros n Hin. apply Hacc. right. assumption.
    - change (names_of ((cstr name, o, Some z, j) :: jms)) with (cstr name :: names_of jms) in *. apply distinct_cons in Hd. destruct Hd as (Hn & Hd).
      destruct vs as [|[v|] vs]; cbn [shaped_members] in Hs; [contradiction| |]; destruct Hs as (H1 & H2); cbn [members struct_shows].
      + apply step; [apply Hj; assumption|assumption|assumption|]. intros acc' Ha. apply IH; assumption.
      + apply step; [assumption|assumption|assumption|]. intros acc' Ha. apply IH; assumption.
  Qed.
  Lemma r_seq jms tags t2e ms ds : distinct (names_of jms) = true -> rm jms ms ds -> renders (JtSeq jms) (TSeq tags t2e ms) (Struct ds).
  Proof.
    intros Hd R v Hv. destruct v as [ | | | |vs| | ]; try contradiction. rewrite encode_seq.
    pose proof (members_spec jms ms ds R Hd vs [] Hv ltac:(intros n _ [])) as M. destruct (members jms vs []) as [r|e|]; cbn [finish outcome]; [| |contradiction].
    - destruct M as (fields & -> & F). apply disp_struct. exists vs, fields. repeat split; assumption.
    - intros j K. apply disp_struct in K. destruct K as (vs' & fields & E & _ & F). injection E as <-. eapply M; eassumption.
  Qed.
  Lemma r_of j tags etag t d : renders j t d -> renders (JtOf j) (TOf tags etag t) (Each d).
  Proof.
    intros R v Hv. apply shaped_of in Hv. destruct Hv as (vs & -> & Hv).
    pose proof (of_outcome (fun x : value => x) (disp d) j vs) as O. rewrite map_id in O.
    assert (H : forall x, In x vs -> outcome (encode_json j (Some x)) (disp d x)) by (intros x Hx; apply R; eapply Forall_forall in Hv; eassumption).
    specialize (O H). destruct (encode_json (JtOf j) (Some (VOf vs))) as [r|e|]; cbn [outcome]; [| |contradiction].
    - destruct O as (js & -> & F). exists vs, js. repeat split. assumption.
    - intros r (vs' & js & E & _ & F). injection E as <-. eapply O; eassumption.
  Qed.
  Inductive ra : list jty -> list member -> list shown -> Prop :=
  | ra_nil : ra [] [] []
  | ra_cons j tag mode opt any t d js ms ds : renders j t d -> ra js ms ds -> ra (j :: js) (Member tag mode opt any t :: ms) (d :: ds).
  Definition choice_json (v : value) := fix member (ms : list jty) (k : nat) : res json :=
    match ms, k with
    | t :: _, O => encode_json t (Some v)
    | _ :: ms, S k => member ms k
    | [], _ => json_null
    end.
  Lemma r_choice js tags t2e ms ds : ra js ms ds -> renders (JtChoice js) (TChoice tags t2e ms) (OneOf ds).
  Proof.
    intros R v Hv. destruct v as [ | | | | | |k v']; try contradiction.
    assert (G : outcome (choice_json v' js k) (fun j => (fix alternative (ts : list shown) (k : nat) : Prop :=
           match ts, k with t :: _, O => disp t v' j | _ :: ts, S k => alternative ts k | [], _ => False end) ds k)).
    { cbn [shaped] in Hv. revert k Hv. induction R as [|j tag mode opt any t d js ms ds Hj R IH]; intros k Hv; [contradiction|]. destruct k as [|k]; [apply Hj; assumption|apply IH; assumption]. }
    change (encode_json (JtChoice js) (Some (VChoice k v'))) with (choice_json v' js k).
    eapply outcome_impl; [|exact G]. intros j. split; [intros H; exists k, v'; split; [reflexivity|exact H]|intros (k' & v'' & E & H)]. injection E as <- <-. exact H.
  Qed.

  (** ** The leaves *)
  Lemma r_integer tags : renders jt_INTEGER (TPrim tags) Number.
  Proof.
    intros v Hv. apply shaped_prim in Hv. destruct Hv as (b & -> & Hb). eapply outcome_impl; [|exact (integer_outcome b Hb)].
    intros j. split; [intros H; exists b; split; [reflexivity|assumption]|intros (b' & E & H); injection E as <-; assumption].
  Qed.
  Lemma r_octets v tags all : renders jt_OCTET_STRING (TString v tags all) Hexadecimal.
  Proof.
    intros x Hx. assert (G : exists b, (x = VBytes b \/ exists u, x = VBits b u) /\ bytes b).
    { destruct v; destruct x as [b|b u| | | | | ]; try contradiction; exists b; (split; [|first [exact Hx|exact (proj1 Hx)]]); eauto. }
    destruct G as (b & E & Hb). change (encode_json jt_OCTET_STRING (Some x)) with (OCTET_STRING_encode_json (Some x)).
    assert (O : exists s, OCTET_STRING_encode_json (Some x) = Ok (JStr s) /\ hex_text s b).
    { destruct E as [->|(u & ->)]; [apply hex_json; assumption|apply hex_json_bits; assumption]. }
    destruct O as (s & -> & T). exists b, s. repeat split; assumption.
  Qed.
  Lemma r_utf8 tags all : renders jt_IA5String (TString STR tags all) Utf8Text.
  Proof.
    intros x Hx. apply shaped_octets in Hx. destruct Hx as (s & -> & Hs).
    change (encode_json jt_IA5String (Some (VBytes s))) with (json_strn_new s). pose proof (strn_spec s Hs) as S.
    destruct (json_strn_new s) as [j|e|]; cbn [outcome]; [| |contradiction].
    - destruct S as (-> & U). exists s. repeat split. assumption.
    - intros j (s' & E & U & _). injection E as <-. contradiction.
  Qed.
  Lemma r_date tags all : renders jt_GeneralizedTime (TString STR tags all) Date.
  Proof.
    intros x Hx. apply shaped_octets in Hx. destruct Hx as (s & -> & Hs). eapply outcome_impl; [|exact (time_spec s)].
    intros j. split; [intros H; exists s; split; [reflexivity|assumption]|intros (b' & E & H); injection E as <-; assumption].
  Qed.
  Lemma r_bool tags : renders jt_BOOLEAN (TBool tags) Boolean.
  Proof. intros x Hx. destruct x as [ | | |b| | | ]; try contradiction. cbn. exists b. split; [reflexivity|]. destruct (b =? 0); reflexivity. Qed.
End Generic.

Lemma short_date_spec st : outcome (UTCTime_encode_json (Some (VBytes st))) (shows_short_date 54 st).
Proof.
  cbn [UTCTime_encode_json]. unfold asn_UT2time, shows_short_date.
  assert (L' : forall j, shows_time (in_century_from 54 st) j -> (13 <= length st)%nat).
  { intros j [s (sy & smo & sd & sh & smi & sse & fr & rest & y & mo & d & h & mi & se & E & (Ly & _) & (Lmo & _) & (Ld & _) & (Lh & _) & (Lmi & _) & (Lse & _) & _)].
    apply (f_equal (@length Z)) in E. rewrite !app_length in E. cbn [length] in E. destruct st as [|a st]; [cbn in E; lia|]. unfold in_century_from in E. rewrite app_length in E. destruct (54 <=? a); cbn [length] in *; lia. }
  destruct (Nat.ltb_spec (length st) 11) as [L|L]; cbn [orb].
  - cbn. intros j (_ & T). apply L' in T. lia.
  - destruct (Nat.leb_spec 22 (length st)) as [L2|L2].
    + cbn. intros j (K & _). lia.
    + destruct st as [|a st]; [cbn in L; lia|]. unfold in_century_from in *.
      replace (53 <? a) with (54 <=? a) by (destruct (Z.leb_spec 54 a), (Z.ltb_spec 53 a); lia).
      eapply outcome_impl; [|apply time_spec]. intros j. split; [intros T; split; [lia|assumption]|intros (_ & T); assumption].
Qed.
Lemma r_short_date oid_name tags all : renders oid_name 54 jt_UTCTime (TString STR tags all) ShortDate.
Proof.
  intros x Hx. apply shaped_octets in Hx. destruct Hx as (s & -> & Hs). eapply outcome_impl; [|exact (short_date_spec s)].
  intros j. split; [intros H; exists s; split; [reflexivity|assumption]|intros (b' & E & H); injection E as <-; assumption].
Qed.
