(** Certificates against their issuers and CRLs: src/object/certificate.c [certificate_validate_chain] and what
    it calls, and the callback of src/state.c.

    libcrypto's X509_verify_cert() is modelled as the list of its checks, in order (x509_vfy.c of OpenSSL 1.1
    and later: the extensions of the path, the CRL, then the path's signatures and dates); those of the path
    are arguments.  Its failures, and malloc()'s within it, are arguments too. *)
From Coq Require Import ZArith List Bool Lia.
From Verif Require Import Base Manifest.
Import ListNotations.
Open Scope list_scope.
Open Scope Z_scope.

(** <openssl/x509_vfy.h> *)
Definition V_ERR_UNABLE_TO_GET_CRL : Z := 3.
Definition V_ERR_CRL_SIGNATURE_FAILURE : Z := 8.
Definition V_ERR_CRL_NOT_YET_VALID : Z := 11.
Definition V_ERR_CRL_HAS_EXPIRED : Z := 12.
Definition V_ERR_CERT_REVOKED : Z := 23.
Definition V_ERR_UNHANDLED_CRITICAL_EXTENSION : Z := 34.
Definition c_EINVAL : Z := 22.

(** An X509_CRL: whether its issuer is the certificate's, whether the issuer's key verifies its signature, the
    dates, the serial numbers. *)
Record crl : Type := { issued : bool; authentic : bool; lastUpdate : Z; nextUpdate : option Z; revoked : list Z }.

(** src/state.c:58-73 [cb]. *)
Definition cb (ok error : Z) : Z := if error =? V_ERR_UNHANDLED_CRITICAL_EXTENSION then 1 else ok.

(** A check of libcrypto's finds an error or not; on an error it asks the callback whether to go on.  The
    result of X509_verify_cert() and the error of the context. *)
Fixpoint run_checks (checks : list (option Z)) (error : Z) : Z * Z :=
  match checks with
  | [] => (1, error)
  | None :: checks => run_checks checks error
  | Some e :: checks => if cb 0 e =? 0 then (0, e) else run_checks checks e
  end.
Definition check (ok : bool) (e : Z) : option Z := if ok then None else Some e.
(** libcrypto's check_revocation() with X509_V_FLAG_CRL_CHECK (src/state.c:103): the certificate's CRL. *)
Definition crl_checks (now : Z) (crls : list crl) (serial : Z) : list (option Z) :=
  match find issued crls with
  | None => [Some V_ERR_UNABLE_TO_GET_CRL]
  | Some c =>
      [check (lastUpdate c <=? now) V_ERR_CRL_NOT_YET_VALID;
       check (match nextUpdate c with Some t => now <? t | None => true end) V_ERR_CRL_HAS_EXPIRED;
       check (authentic c) V_ERR_CRL_SIGNATURE_FAILURE;
       check (negb (existsb (Z.eqb serial) (revoked c))) V_ERR_CERT_REVOKED]
  end.
(** A certificate, as far as this goes: its serial number, and what libcrypto finds of its path. *)
Record subject : Type := { serial : Z; path_extensions : list (option Z); path_signatures : list (option Z) }.
Definition X509_verify_cert (now : Z) (s : subject) (crls : list crl) : Z * Z :=
  run_checks (path_extensions s ++ crl_checks now crls (serial s) ++ path_signatures s) 0.

(** What the surroundings do during a call. *)
Record surroundings : Type :=
  { ctx_new : nat -> bool;                   (* X509_STORE_CTX_new(), the first and second time *)
    ctx_init : nat -> bool;
    first : Z;                               (* the time of the first X509_verify_cert() *)
    now : Z + Z;                             (* get_current_time(): the errno, or the time *)
    second : Z;                              (* the time of the second X509_verify_cert() *)
    adj : bool; dup : bool; set1 : bool;     (* ASN1_TIME_adj(), X509_CRL_dup(), X509_CRL_set1_nextUpdate() *)
    notices : bool;                          (* whether libcrypto encodes again (and so verifies) what set1 changed *)
    push : nat -> bool }.                    (* sk_X509_CRL_push() *)

(** What's taken and given back: contexts, clones of CRLs. *)
Inductive event : Set := CtxNew | CtxFree | Clone | FreeClone.
(** pr_crit() ends the process. *)
Inductive outcome : Type := Returns (r : Z) (crls : list crl) (ev : list event) | Exits.

(** sk_X509_CRL_pop(): the last one. *)
Definition sk_pop (l : list crl) : option crl * list crl :=
  match rev l with [] => (None, []) | c :: r => (Some c, rev r) end.

(** src/object/certificate.c:860-901 [update_crl_time], of a CRL that isn't NULL. *)
Definition update_crl_time (S : surroundings) (crls : list crl) (original : crl) : Z * list crl * list event :=
  match now S with
  | inl error => (error, crls, [])
  | inr t =>
      if negb (adj S) then (- c_EINVAL, crls, [])
      else if negb (dup S) then (- c_EINVAL, crls, [])
      else
        let clone :=
          if set1 S
          then {| issued := issued original; authentic := authentic original && negb (notices S); lastUpdate := lastUpdate original;
                  nextUpdate := Some (t + 60); revoked := revoked original |}
          else original in
        if push S 0 then (0, crls ++ [clone], [Clone]) else (- c_EINVAL, crls, [Clone; FreeClone])
  end.
(** src/object/certificate.c:920-982 [verify_cert_crl_stale]. *)
Definition verify_cert_crl_stale (S : surroundings) (s : subject) (crls : list crl) : outcome :=
  if negb (ctx_new S 1) then Returns (- c_EINVAL) crls []
  else if negb (ctx_init S 1) then Returns (- c_EINVAL) crls [CtxNew; CtxFree]
  else match sk_pop crls with
       | (None, _) => Exits                  (* not with the CRLs that complain_crl_stale() lets pass *)
       | (Some original, crls) =>
           let '(error, crls, ev) := update_crl_time S crls original in
           let '(error, crls, ev) :=
             if negb (error =? 0) then (error, crls, ev)
             else
               let error := if 0 <? fst (X509_verify_cert (second S) s crls) then 0 else - c_EINVAL in
               match sk_pop crls with
               | (None, crls) => (- c_EINVAL, crls, ev)
               | (Some clone, crls) => (error, crls, ev ++ [FreeClone])
               end in
           if push S 1 then Returns error (crls ++ [original]) ([CtxNew] ++ ev ++ [CtxFree])
           else Returns (- c_EINVAL) crls ([CtxNew] ++ ev ++ [CtxFree])
       end.
(** src/object/certificate.c:984-1007 [complain_crl_stale]; None: pr_crit(). *)
Definition complain_crl_stale (stale : action) (crls : list crl) : option Z :=
  match crls with [] => None | _ => Some (incidence stale) end.
(** src/object/certificate.c:1009-1088 [certificate_validate_chain].  None: the CRLs of a trust anchor. *)
Definition certificate_validate_chain (stale : action) (S : surroundings) (s : subject) (crls : option (list crl)) : outcome :=
  match crls with
  | None => Returns 0 [] []
  | Some crls =>
      if negb (ctx_new S 0) then Returns (- c_EINVAL) crls []
      else if negb (ctx_init S 0) then Returns (- c_EINVAL) crls [CtxNew; CtxFree]
      else
        let '(ok, error) := X509_verify_cert (first S) s crls in
        if 0 <? ok then Returns 0 crls [CtxNew; CtxFree]
        else if error =? 0 then Returns (- c_EINVAL) crls [CtxNew; CtxFree]
        else if negb (error =? V_ERR_CRL_HAS_EXPIRED) then Returns (- c_EINVAL) crls [CtxNew; CtxFree]
        else match complain_crl_stale stale crls with
             | None => Exits
             | Some r =>
                 if negb (r =? 0) then Returns (- c_EINVAL) crls [CtxNew; CtxFree]
                 else match verify_cert_crl_stale S s crls with
                      | Returns r crls ev => Returns r crls ([CtxNew; CtxFree] ++ ev)
                      | Exits => Exits
                      end
             end
  end.

(** The certificates of a publication point, one after the other, with its CRLs (src/rpp.c:156-194 [rpp_crl]);
    the results of the calls. *)
Fixpoint validate_all (stale : action) (l : list (surroundings * subject)) (crls : list crl) : option (list Z * list crl * list event) :=
  match l with
  | [] => Some ([], crls, [])
  | (sur, s) :: l =>
      match certificate_validate_chain stale sur s (Some crls) with
      | Exits => None
      | Returns r crls ev =>
          match validate_all stale l crls with
          | None => None
          | Some (rs, crls, ev') => Some (r :: rs, crls, ev ++ ev')
          end
      end
  end.
