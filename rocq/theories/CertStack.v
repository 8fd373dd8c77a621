(** The traversal of a trust anchor's tree of certificates, with its stack of
    issuers and its stack of deferred certificates.

    Models src/cert_stack.c, src/rpp.c (traversal), src/object/certificate.c
    [certificate_traverse] and src/object/tal.c [handle_tal_uri].  What the
    individual checks decide is a parameter ([checks]); it may depend on the
    moment, the certificate, its publication point and its issuers. *)
From Verif Require Import Base.
Notation length := List.length.

Definition uri := list Z.
(** src/rpp.c:10-44 [struct rpp]: the files a manifest lists.  (Its CRL is
    consulted by the checks.) *)
Record rpp := { pp_certs : list uri; pp_roas : list uri; pp_gbrs : list uri }.

(** src/object/certificate.h [enum cert_type]. *)
Inductive cert_type := CERTYPE_TA | CERTYPE_CA | CERTYPE_BGPSEC | CERTYPE_EE.

(** The outside: the error (0: none) or answer of each of the functions called.
    The moment is the number of certificates looked at so far. *)
Definition check (A : Type) := nat -> option rpp -> uri -> list uri -> A.
Record checks := {
  c_crl : check Z;                    (* rpp_crl *)
  c_load : check Z;                   (* certificate_load *)
  c_chain : check Z;                  (* certificate_validate_chain *)
  c_ctype : check (option cert_type); (* get_certificate_type, of a non-TA *)
  c_rfc6487 : check Z;                (* certificate_validate_rfc6487 *)
  c_ext_ta : check Z;                 (* certificate_validate_extensions_ta *)
  c_ext_ca : check Z;                 (* certificate_validate_extensions_ca *)
  c_download : check bool;            (* download_rpp: not NULL *)
  c_resources : check Z;              (* init_resources *)
  c_push : check bool;                (* sk_X509_push: ok *)
  c_manifest : check (option rpp)     (* handle_manifest *)
}.

(** What can be seen of it: certificates, ROAs and ghostbusters looked at, with the
    publication point that listed them and the issuers (nearest first). *)
Inductive event :=
| Cert (pp : option rpp) (u : uri) (issuers : list uri)
| Roa (pp : rpp) (u : uri) (issuers : list uri)
| Gbr (pp : rpp) (u : uri) (issuers : list uri).

(** src/cert_stack.c:15-26 [struct defer_node]. *)
Inductive defer := Separator | Deferred (pp : rpp) (u : uri).
(** src/cert_stack.c:63-90 [struct cert_stack]; [x509s] and [metas] have the last
    pushed first.  A certificate, and its metadata, are its URI. *)
Record cstack := { defers : list defer; x509s : list uri; metas : list uri; log : list event; moment : nat }.

Definition set_stacks (s : cstack) d x m : cstack := {| defers := d; x509s := x; metas := m; log := log s; moment := moment s |}.
Definition add_log (s : cstack) (e : list event) : cstack := {| defers := defers s; x509s := x509s s; metas := metas s; log := log s ++ e; moment := moment s |}.

(** src/cert_stack.c:175-187 [deferstack_push]. *)
Definition deferstack_push (s : cstack) (pp : rpp) (u : uri) : cstack := set_stacks s (Deferred pp u :: defers s) (x509s s) (metas s).
(** src/cert_stack.c:189-205 [x509stack_pop]. *)
Definition x509stack_pop (s : cstack) : res cstack :=
  match x509s s, metas s with
  | _ :: x, _ :: m => Ok (set_stacks s (defers s) x m)
  | _, _ => UB
  end.
(** src/cert_stack.c:210-234 [deferstack_pop]. *)
Fixpoint pop_loop (d : list defer) (s : cstack) : res (cstack * option (rpp * uri)) :=
  match d with
  | [] => Ok (set_stacks s [] (x509s s) (metas s), None)
  | Separator :: d => bind (x509stack_pop s) (fun s => pop_loop d (set_stacks s d (x509s s) (metas s)))
  | Deferred pp u :: d => Ok (set_stacks s d (x509s s) (metas s), Some (pp, u))
  end.
Definition deferstack_pop (s : cstack) : res (cstack * option (rpp * uri)) := pop_loop (defers s) s.

Section Traversal.
  Variable E : checks.
  (** The configured maximum length of a certificate path. *)
  Variable max_cert_depth : nat.

  (** src/cert_stack.c:287-327 [x509stack_push]: the error. *)
  Definition x509stack_push (n : nat) (parent : option rpp) (s : cstack) (u : uri) : cstack * Z :=
    let error := c_resources E n parent u (x509s s) in
    if negb (error =? 0) then (s, error)
    else if negb (c_push E n parent u (x509s s)) then (s, -1)
    else (set_stacks s (Separator :: defers s) (u :: x509s s) (u :: metas s), 0).
  (** src/cert_stack.c:336-348 [x509stack_cancel]. *)
  Definition x509stack_cancel (s : cstack) : res cstack :=
    bind (x509stack_pop s) (fun s =>
    match defers s with [] => UB | _ :: d => Ok (set_stacks s d (x509s s) (metas s)) end).

  (** src/rpp.c:196-222 [__cert_traverse]: the loop runs from the last to the
      first. *)
  Definition cert_traverse (s : cstack) (pp : rpp) : cstack :=
    fold_left (fun s u => deferstack_push s pp u) (rev (pp_certs pp)) s.
  (** src/rpp.c:227-256 [rpp_traverse]. *)
  Definition rpp_traverse (s : cstack) (pp : rpp) : cstack :=
    let s := cert_traverse s pp in
    let s := add_log s (map (fun u => Roa pp u (x509s s)) (pp_roas pp)) in
    add_log s (map (fun u => Gbr pp u (x509s s)) (pp_gbrs pp)).

  (** src/object/certificate.c:1910-2018 [certificate_traverse]. *)
  Definition certificate_traverse (parent : option rpp) (u : uri) (s : cstack) : res (cstack * Z) :=
    let n := moment s in
    let chain := x509s s in
    let s := {| defers := defers s; x509s := x509s s; metas := metas s; log := log s ++ [Cert parent u chain]; moment := S n |} in
    if (max_cert_depth <=? length chain)%nat then Ok (s, -22)
    else
      let e := c_crl E n parent u chain in if negb (e =? 0) then Ok (s, e) else
      let e := c_load E n parent u chain in if negb (e =? 0) then Ok (s, e) else
      let e := c_chain E n parent u chain in if negb (e =? 0) then Ok (s, e) else
      match (match parent with None => Some CERTYPE_TA | Some _ => c_ctype E n parent u chain end) with
      | None => Ok (s, -22)
      | Some CERTYPE_BGPSEC | Some CERTYPE_EE => Ok (s, 0)
      | Some t =>
          let e := c_rfc6487 E n parent u chain in if negb (e =? 0) then Ok (s, e) else
          let e := (match t with CERTYPE_TA => c_ext_ta E n parent u chain | _ => c_ext_ca E n parent u chain end) in
          if negb (e =? 0) then Ok (s, e) else
          if negb (c_download E n parent u chain) then Ok (s, 22) else
          let '(s, e) := x509stack_push n parent s u in
          if negb (e =? 0) then Ok (s, e) else
          match c_manifest E n parent u (x509s s) with
          | None => bind (x509stack_cancel s) (fun s => Ok (s, -22))
          | Some pp => Ok (rpp_traverse s pp, 0)
          end
      end.

  (** src/object/tal.c:390-412: the loop of [handle_tal_uri].  [None]: not over
      after [fuel] rounds. *)
  Fixpoint tal_loop (fuel : nat) (s : cstack) : option (res cstack) :=
    match fuel with
    | O => None
    | S fuel =>
        match deferstack_pop s with
        | UB => Some UB
        | Err e => Some (Err e)
        | Ok (s, None) => Some (Ok s)
        | Ok (s, Some (pp, u)) =>
            match certificate_traverse (Some pp) u s with
            | UB => Some UB
            | Err e => Some (Err e)
            | Ok (s, _) => tal_loop fuel s
            end
        end
    end.
  (** src/cert_stack.c:93-111 [certstack_create]. *)
  Definition certstack_create : cstack := {| defers := []; x509s := []; metas := []; log := []; moment := 0 |}.
  (** src/object/tal.c:338-417 [handle_tal_uri], of a certificate's URI: whether the
      root was accepted. *)
  Definition handle_tal_uri (fuel : nat) (u : uri) : option (res (cstack * bool)) :=
    match certificate_traverse None u certstack_create with
    | UB => Some UB
    | Err e => Some (Err e)
    | Ok (s, e) =>
        if negb (e =? 0) then Some (Ok (s, false))
        else match tal_loop fuel s with
             | None => None
             | Some UB => Some UB
             | Some (Err e) => Some (Err e)
             | Some (Ok s) => Some (Ok (s, true))
             end
    end.
End Traversal.
