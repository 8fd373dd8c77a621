(** Specification vocabulary for the traversal (C39): a depth-first walk. *)
From Verif Require Import Base CertStack.
Notation length := List.length.

Section Walk.
  Variable E : checks.
  Variable max_cert_depth : nat.

  (** At moment [n], certificate [u], listed by [pp] (the trust anchor: by none)
      and issued along [issuers], passes all the checks, and has publication point
      [pp']. *)
  Definition accepted (n : nat) (pp : option rpp) (u : uri) (issuers : list uri) (pp' : rpp) : Prop :=
    (length issuers < max_cert_depth)%nat /\
    c_crl E n pp u issuers = 0 /\ c_load E n pp u issuers = 0 /\ c_chain E n pp u issuers = 0 /\ c_rfc6487 E n pp u issuers = 0 /\
    match pp with
    | None => c_ext_ta E n pp u issuers = 0
    | Some _ => (c_ctype E n pp u issuers = Some CERTYPE_CA /\ c_ext_ca E n pp u issuers = 0) \/
                (c_ctype E n pp u issuers = Some CERTYPE_TA /\ c_ext_ta E n pp u issuers = 0)
    end /\
    c_download E n pp u issuers = true /\ c_resources E n pp u issuers = 0 /\ c_push E n pp u issuers = true /\
    c_manifest E n pp u (u :: issuers) = Some pp'.

  (** Looking at a certificate, and, if it's accepted, at what its publication
      point lists, below it: ROAs, ghostbusters, and each certificate in turn. *)
  Inductive walk : option rpp -> uri -> list uri -> nat -> list event -> nat -> Prop :=
  | wk_refused pp u issuers n : (forall pp', ~ accepted n pp u issuers pp') -> walk pp u issuers n [Cert pp u issuers] (S n)
  | wk_accepted pp u issuers n pp' es n' : accepted n pp u issuers pp' -> walks pp' (pp_certs pp') (u :: issuers) (S n) es n' ->
      walk pp u issuers n (Cert pp u issuers :: map (fun r => Roa pp' r (u :: issuers)) (pp_roas pp') ++ map (fun g => Gbr pp' g (u :: issuers)) (pp_gbrs pp') ++ es) n'
  with walks : rpp -> list uri -> list uri -> nat -> list event -> nat -> Prop :=
  | ws_nil pp issuers n : walks pp [] issuers n [] n
  | ws_cons pp u us issuers n es n1 es' n' : walk (Some pp) u issuers n es n1 -> walks pp us issuers n1 es' n' -> walks pp (u :: us) issuers n (es ++ es') n'.
End Walk.

(** The certificates looked at, in order. *)
Definition certs_of (es : list event) : list (option rpp * uri * list uri) :=
  flat_map (fun e => match e with Cert pp u i => [(pp, u, i)] | _ => [] end) es.

Section Kids.
  Variable E : checks.
  Variable max_cert_depth : nat.
  (** What a certificate looked at at moment [n] puts on the agenda: if it's
      accepted, the certificates its publication point lists, with it as their
      issuer; otherwise nothing. *)
  Definition kids (n : nat) (c : option rpp * uri * list uri) (ks : list (option rpp * uri * list uri)) : Prop :=
    let '(pp, u, iss) := c in
    (exists pp', accepted E max_cert_depth n pp u iss pp' /\ ks = map (fun v => (Some pp', v, u :: iss)) (pp_certs pp')) \/
    ((forall pp', ~ accepted E max_cert_depth n pp u iss pp') /\ ks = []).
  Inductive all_kids : nat -> list (option rpp * uri * list uri) -> list (list (option rpp * uri * list uri)) -> Prop :=
  | ak_nil n : all_kids n [] []
  | ak_cons n c cs k ks : kids n c k -> all_kids (S n) cs ks -> all_kids n (c :: cs) (k :: ks).
End Kids.

(** The issuers of an event. *)
Definition ev_issuers (e : event) := match e with Cert _ _ i => i | Roa _ _ i => i | Gbr _ _ i => i end.
