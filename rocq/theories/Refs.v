(** The memory the validation of a tree uses: URIs, publication points, certificates, CRLs, decoded objects and resources, each of them with
    the number of references to it (those that can have only one owner: 1 until they're freed).  Models src/types/uri.c, src/rpp.c,
    src/cert_stack.c, src/certificate_refs.c and the functions that allocate and release in src/object/{certificate,manifest,roa,ghostbusters,
    signed_object,tal}.c and src/asn1/signed_data.c.  What each check finds is an arbitrary sequence of answers ([answers]); everything else, such as
    what is read from the objects, is omitted.  Using, referencing or releasing an object that has been freed is undefined behaviour, as is
    pr_crit(). *)
From Verif Require Import Base.
Notation length := List.length.

(** What a publication point refers to (src/rpp.c:10-44 [struct rpp]); [KStack], [KX509Crl]: crl.stack and the CRL in it. *)
Inductive kind := KCert | KRoa | KGbr | KCrl | KStack | KX509Crl.
(** src/cert_stack.c:15-26 [struct defer_node]. *)
Inductive defer := Separator | Deferred (uri pp : nat).
(** An element of both stacks of issuers (src/cert_stack.c:40-52 [struct metadata_node]; the certificate is that of x509s, which always has as many elements). *)
Record meta := { m_uri : nat; m_x509 : nat; m_resources : nat }.

Record st := {
  refs : nat -> nat;                       (* 0: freed, or not allocated yet *)
  point : nat -> bool;                     (* it's a publication point *)
  kids : nat -> list (kind * nat);         (* of a publication point *)
  next : nat;
  defers : list defer; metas : list meta;  (* struct cert_stack *)
  asked : nat
}.
Definition M (A : Type) := st -> res (A * st).
Definition ret {A} (a : A) : M A := fun s => Ok (a, s).
Definition bnd {A B} (m : M A) (f : A -> M B) : M B := fun s => match m s with Ok (a, s') => f a s' | Err e => Err e | UB => UB end.
Notation "x <- m ;; f" := (bnd m (fun x => f)) (at level 61, m at next level, right associativity).
Notation "m ;; f" := (bnd m (fun _ => f)) (at level 61, right associativity).
Definition crit {A} : M A := fun _ => UB.
Definition set_refs (s : st) (f : nat -> nat) : st := {| refs := f; point := point s; kids := kids s; next := next s; defers := defers s; metas := metas s; asked := asked s |}.
Definition at_ {A} (f : nat -> A) (i : nat) (a : A) : nat -> A := fun j => if Nat.eqb j i then a else f j.

(** pmalloc() and libcrypto's functions that allocate; dereferencing; src/types/uri.c:467-472 [uri_refget], src/rpp.c:64-68 [rpp_refget]; src/types/uri.c:474-486 [uri_refput],
    X509_free() and the like. *)
Definition create (p : bool) : M nat := fun s =>
  Ok (next s, {| refs := at_ (refs s) (next s) 1%nat; point := at_ (point s) (next s) p; kids := at_ (kids s) (next s) []; next := S (next s);
                 defers := defers s; metas := metas s; asked := asked s |}).
Definition use (i : nat) : M unit := fun s => if Nat.eqb (refs s i) 0 then UB else Ok (tt, s).
Definition get (i : nat) : M unit := fun s => if Nat.eqb (refs s i) 0 then UB else Ok (tt, set_refs s (at_ (refs s) i (S (refs s i)))).
Definition put (i : nat) : M unit := fun s => if Nat.eqb (refs s i) 0 then UB else Ok (tt, set_refs s (at_ (refs s) i (refs s i - 1)%nat)).
Fixpoint put_all (l : list nat) : M unit := match l with [] => ret tt | i :: l => put i;; put_all l end.
Definition opt (o : option nat) : list nat := match o with Some i => [i] | None => [] end.

Definition get_kids (p : nat) : M (list (kind * nat)) := fun s => if Nat.eqb (refs s p) 0 then UB else Ok (kids s p, s).
Definition add_kid (p : nat) (k : kind) (i : nat) : M unit := fun s =>
  if Nat.eqb (refs s p) 0 then UB
  else Ok (tt, {| refs := refs s; point := point s; kids := at_ (kids s) p (kids s p ++ [(k, i)]); next := next s; defers := defers s; metas := metas s; asked := asked s |}).
(** src/rpp.c:70-84 [rpp_refput]. *)
Definition rpp_refput (p : nat) : M unit := fun s =>
  (k <- get_kids p;; put p;; (if Nat.eqb (refs s p) 1 then put_all (map snd k) else ret tt)) s.
Definition is_kind (a b : kind) : bool :=
  match a, b with KCert, KCert | KRoa, KRoa | KGbr, KGbr | KCrl, KCrl | KStack, KStack | KX509Crl, KX509Crl => true | _, _ => false end.
Definition of_kind (k : kind) (l : list (kind * nat)) : list nat := map snd (filter (fun x => is_kind (fst x) k) l).

(** The stacks. *)
Definition set_stacks (s : st) (d : list defer) (m : list meta) : st := {| refs := refs s; point := point s; kids := kids s; next := next s; defers := d; metas := m; asked := asked s |}.
Definition push_defer (d : defer) : M unit := fun s => Ok (tt, set_stacks s (d :: defers s) (metas s)).
Definition push_meta (m : meta) : M unit := fun s => Ok (tt, set_stacks s (defers s) (m :: metas s)).
Definition pop_defer : M (option defer) := fun s => match defers s with [] => Ok (None, s) | d :: l => Ok (Some d, set_stacks s l (metas s)) end.
Definition pop_meta : M (option meta) := fun s => match metas s with [] => Ok (None, s) | m :: l => Ok (Some m, set_stacks s (defers s) l) end.
Definition trusted : M (list nat) := fun s => Ok (map m_x509 (metas s), s).
Definition depth : M nat := fun s => Ok (length (metas s), s).

(** What a certificate's extensions mention: src/certificate_refs.h [struct certificate_refs], src/object/certificate.c:39-48 [struct sia_uris],
    and which extensions have been found. *)
Record slots := { crldp : option nat; caIssuers : option nat; signedObject : option nat; rpps : list nat; mft : option nat;
                  f_cdp : bool; f_aia : bool; f_sia : bool }.
Definition no_slots : slots := {| crldp := None; caIssuers := None; signedObject := None; rpps := []; mft := None; f_cdp := false; f_aia := false; f_sia := false |}.
Definition set_cdp (l : slots) c := {| crldp := c; caIssuers := caIssuers l; signedObject := signedObject l; rpps := rpps l; mft := mft l; f_cdp := true; f_aia := f_aia l; f_sia := f_sia l |}.
Definition set_aia (l : slots) a := {| crldp := crldp l; caIssuers := a; signedObject := signedObject l; rpps := rpps l; mft := mft l; f_cdp := f_cdp l; f_aia := true; f_sia := f_sia l |}.
Definition set_so (l : slots) a := {| crldp := crldp l; caIssuers := caIssuers l; signedObject := a; rpps := rpps l; mft := mft l; f_cdp := f_cdp l; f_aia := f_aia l; f_sia := true |}.
Definition set_sia (l : slots) r m := {| crldp := crldp l; caIssuers := caIssuers l; signedObject := signedObject l; rpps := r; mft := m; f_cdp := f_cdp l; f_aia := f_aia l; f_sia := true |}.

Section Validation.
  Variable answers : nat -> Z.
  Variable max_cert_depth : nat.

  Definition ask : M Z := fun s => Ok (answers (asked s), {| refs := refs s; point := point s; kids := kids s; next := next s; defers := defers s; metas := metas s; asked := S (asked s) |}).

  (** src/object/certificate.c:1559-1610 [handle_ad]: the error, and the URI the callback has referenced.  [n]: how many access descriptions are left. *)
  Fixpoint handle_ad (required : bool) (n : nat) (found : option nat) : M (Z * option nat) :=
    match n with
    | O => ret (if required && (match found with Some _ => false | None => true end) then -3 else 0, found)
    | S n =>
        k <- ask;;
        if (k =? 0) || (k =? 1) then handle_ad required n found      (* something else; not rsync, not HTTPS *)
        else if k =? 2 then ret (22, found)                          (* uri_create_ad() failed *)
        else
          u <- create false;;
          match found with
          | Some _ => put u;; ret (22, found)
          | None => get u;; put u;; handle_ad required n (Some u)
          end
    end.
  (** src/object/certificate.c:1632-1654 [handle_sia_ca]. *)
  Definition handle_sia_ca (l : slots) : M (Z * slots) :=
    n1 <- ask;; x <- handle_ad false (Z.to_nat n1) None;;
    let l := set_sia l (opt (snd x)) None in
    if negb (fst x =? 0) then ret (fst x, l)
    else
      n2 <- ask;; y <- handle_ad false (Z.to_nat n2) None;;
      let l := set_sia l (rpps l ++ opt (snd y)) None in
      if negb (fst y =? 0) then ret (fst y, l)
      else
        n3 <- ask;; z <- handle_ad true (Z.to_nat n3) None;;
        ret (fst z, set_sia l (rpps l) (snd z)).
  (** src/extension.c:838-895 [handle_extension], 897-919 [handle_extensions], with the handlers of
      src/object/certificate.c:1717-1738 [certificate_validate_extensions_ta] ([cdp], [aia] false), 1749-1783 [certificate_validate_extensions_ca] ([ee] false), 1785-1810 [certificate_validate_extensions_ee]. *)
  Fixpoint handle_extensions (refs_too ee : bool) (n : nat) (l : slots) : M (Z * slots) :=
    match n with
    | O => e <- ask;; ret (if (refs_too && negb (f_cdp l && f_aia l)) || negb (f_sia l) then 22 else e, l)   (* mandatory ones *)
    | S n =>
        k <- ask;;
        if (k =? 0) && refs_too then
          if f_cdp l then ret (22, l)
          else e <- ask;; if negb (e =? 0) then ret (e, l) else c <- create false;; handle_extensions refs_too ee n (set_cdp l (Some c))
        else if (k =? 1) && refs_too then
          if f_aia l then ret (22, l)
          else a <- ask;; x <- handle_ad true (Z.to_nat a) None;; if negb (fst x =? 0) then ret (fst x, set_aia l (snd x)) else handle_extensions refs_too ee n (set_aia l (snd x))
        else if k =? 2 then
          if f_sia l then ret (22, l)
          else if ee then a <- ask;; x <- handle_ad true (Z.to_nat a) None;; if negb (fst x =? 0) then ret (fst x, set_so l (snd x)) else handle_extensions refs_too ee n (set_so l (snd x))
          else x <- handle_sia_ca l;; if negb (fst x =? 0) then ret x else handle_extensions refs_too ee n (snd x)
        else e <- ask;; if negb (e =? 0) then ret (e, l) else handle_extensions refs_too ee n l
    end.
  (** src/certificate_refs.c:11-19 [refs_cleanup]; src/object/certificate.c:107-112 [sia_uris_cleanup]. *)
  Definition refs_cleanup (l : slots) : M unit := put_all (opt (crldp l) ++ opt (caIssuers l) ++ opt (signedObject l)).
  Definition sia_uris_cleanup (l : slots) : M unit := put_all (rpps l ++ opt (mft l)).

  (** src/certificate_refs.c:21-39 [validate_cdp]. *)
  Definition validate_cdp (l : slots) (pp : nat) : M Z :=
    match crldp l with
    | None => crit
    | Some c => use c;; k <- get_kids pp;; match of_kind KCrl k with [] => crit | u :: _ => use u;; ask end
    end.
  (** src/certificate_refs.c:41-55 [validate_signedObject]. *)
  Definition validate_signedObject (l : slots) (uri : nat) : M Z :=
    match signedObject l with None => crit | Some o => use o;; use uri;; ask end.
  (** src/certificate_refs.c:64-78 [refs_validate_ca] (a trust anchor's isn't called), 88-99 [refs_validate_ee]. *)
  Definition refs_validate_ca (l : slots) (parent : option nat) : M Z := 
    match parent with
    | None => ret 0
    | Some pp => e <- validate_cdp l pp;; if negb (e =? 0) then ret e else match signedObject l with Some _ => crit | None => ret 0 end
    end.
  Definition refs_validate_ee (l : slots) (pp uri : nat) : M Z := e <- validate_cdp l pp;; if negb (e =? 0) then ret e else validate_signedObject l uri.

  (** src/rpp.c:125-148 [add_crl_to_stack], with src/object/crl.c:166-184 [crl_load]; src/rpp.c:156-194 [rpp_crl]: the error, and the stack of CRLs (None: there's none). *)
  Definition rpp_crl (parent : option nat) : M (Z * option nat) :=
    match parent with
    | None => ret (0, None)
    | Some pp =>
        k <- get_kids pp;;
        match of_kind KCrl k with
        | [] => crit
        | u :: _ =>
            match of_kind KStack k with
            | stack :: _ => ret (0, Some stack)
            | [] =>
                cached <- ask;;
                if negb (cached =? 0) then ret (cached, None)
                else
                  stack <- create false;;
                  use u;; loads <- ask;;
                  if negb (loads =? 0) then put stack;; ret (loads, None)
                  else
                    crl <- create false;;
                    valid <- ask;; pushed <- ask;;
                    if negb (valid =? 0) || negb (pushed =? 0) then put crl;; put stack;; ret (22, None)
                    else add_kid pp KX509Crl crl;; add_kid pp KStack stack;; ret (0, Some stack)
            end
        end
    end.
  Fixpoint each (f : nat -> M unit) (l : list nat) : M unit := match l with [] => ret tt | i :: l => f i;; each f l end.
  (** src/object/certificate.c:1009-1088 [certificate_validate_chain] (the copy of the CRL that [verify_cert_crl_stale] uses isn't shown). *)
  Definition certificate_validate_chain (x509 : nat) (crls : option nat) : M Z :=
    match crls with None => ret 0 | Some c => use c;; use x509;; t <- trusted;; each use t;; ask end.

  (** src/object/signed_object.c:6-22 [signed_object_decode], 91-96 [signed_object_cleanup]. *)
  Definition signed_object_decode (uri : nat) : M (option (nat * nat)) :=
    use uri;; e <- ask;;
    if negb (e =? 0) then ret None
    else cinfo <- create false;; e <- ask;; if negb (e =? 0) then put cinfo;; ret None else sdata <- create false;; ret (Some (cinfo, sdata)).
  Definition signed_object_cleanup (o : nat * nat) : M unit := put (fst o);; put (snd o).
  (** src/object/signed_object.c:69-89 [signed_object_validate], src/asn1/signed_data.c:49-113 [handle_sdata_certificate], 246-379 [signed_data_validate]. *)
  Definition signed_object_validate (o : nat * nat) (crls : option nat) : M (Z * slots) :=
    use (fst o);; use (snd o);;
    e <- ask;;
    if negb (e =? 0) then ret (e, no_slots)
    else
      x509 <- create false;;
      e <- certificate_validate_chain x509 crls;;
      if negb (e =? 0) then put x509;; ret (e, no_slots)
      else
        e <- ask;;
        if negb (e =? 0) then put x509;; ret (e, no_slots)
        else
          n <- ask;; x <- handle_extensions true true (Z.to_nat n) no_slots;;
          if negb (fst x =? 0) then put x509;; ret x
          else e <- ask;; put x509;; ret (e, snd x).
  (** src/asn1/signed_data.c:26-31 [eecert_cleanup]. *)
  Definition eecert_cleanup (resources : nat) (l : slots) : M unit := put resources;; refs_cleanup l.

  (** src/object/roa.c:247-295 [roa_traverse] ([decodes]: decode_roa(), and the structure it allocates), src/object/ghostbusters.c:16-58 [ghostbusters_traverse]. *)
  Definition object_traverse (roa : bool) (uri pp : nat) : M unit :=
    so <- signed_object_decode uri;;
    match so with
    | None => ret tt
    | Some so =>
        e <- (if roa then ask else ret 0);;
        if negb (e =? 0) then signed_object_cleanup so
        else
          decoded <- (if roa then x <- create false;; ret [x] else ret []);;
          x <- rpp_crl (Some pp);;
          (if negb (fst x =? 0) then ret tt
           else
             resources <- create false;;
             v <- signed_object_validate so (snd x);;
             (if negb (fst v =? 0) then ret tt
              else e <- ask;; if negb (e =? 0) then ret tt else refs_validate_ee (snd v) pp uri;; ret tt);;
             eecert_cleanup resources (snd v));;
          put_all decoded;; signed_object_cleanup so
    end.

  (** src/object/manifest.c:184-270 [build_rpp]. *)
  Fixpoint build_files (n : nat) (pp : nat) : M Z :=
    match n with
    | O => ret 0
    | S n =>
        e <- ask;;
        if negb (e =? 0) then ret e
        else
          u <- create false;;
          h <- ask;;
          if h <? 0 then put u;; ret h
          else if 0 <? h then put u;; build_files n pp
          else
            k <- ask;;
            if k =? 0 then add_kid pp KCert u;; build_files n pp
            else if k =? 1 then add_kid pp KRoa u;; build_files n pp
            else if k =? 2 then
              l <- get_kids pp;;
              match of_kind KCrl l with
              | _ :: _ => put u;; ret 22
              | [] => add_kid pp KCrl u;; build_files n pp
              end
            else if k =? 3 then add_kid pp KGbr u;; build_files n pp
            else put u;; build_files n pp
    end.
  Definition build_rpp : M (option nat) :=
    pp <- create true;;
    n <- ask;; e <- build_files (Z.to_nat n) pp;;
    if negb (e =? 0) then rpp_refput pp;; ret None
    else l <- get_kids pp;; match of_kind KCrl l with [] => rpp_refput pp;; ret None | _ => ret (Some pp) end.
  (** src/object/manifest.c:11-23 [cage]. *)
  Definition cage (uri : nat) (notif : option nat) : M (option nat) :=
    match notif with
    | None => get uri;; ret (Some uri)
    | Some n => use uri;; use n;; e <- ask;; if negb (e =? 0) then ret None else u <- create false;; ret (Some u)
    end.
  (** src/object/manifest.c:276-341 [handle_manifest]. *)
  Definition handle_manifest (mft : nat) (notif : option nat) : M (option nat) :=
    uri <- cage mft notif;;
    match uri with
    | None => ret None
    | Some uri =>
        use uri;;
        so <- signed_object_decode uri;;
        match so with
        | None => put uri;; ret None
        | Some so =>
            e <- ask;;
            if negb (e =? 0) then signed_object_cleanup so;; put uri;; ret None
            else
              m <- create false;;
              pp <- build_rpp;;
              match pp with
              | None => put m;; signed_object_cleanup so;; put uri;; ret None
              | Some pp =>
                  x <- rpp_crl (Some pp);;
                  if negb (fst x =? 0) then rpp_refput pp;; put m;; signed_object_cleanup so;; put uri;; ret None
                  else
                    resources <- create false;;
                    v <- signed_object_validate so (snd x);;
                    e <- (if negb (fst v =? 0) then ret (fst v) else e <- ask;; if negb (e =? 0) then ret e else refs_validate_ee (snd v) pp uri);;
                    eecert_cleanup resources (snd v);;
                    if negb (e =? 0) then rpp_refput pp;; put m;; signed_object_cleanup so;; put uri;; ret None
                    else put m;; signed_object_cleanup so;; put uri;; ret (Some pp)
              end
        end
    end.

  (** src/cert_stack.c:113-126 [defer_destroy], 135-142 [meta_destroy], 175-187 [deferstack_push]. *)
  Definition defer_destroy (d : defer) : M unit := match d with Separator => ret tt | Deferred uri pp => put uri;; rpp_refput pp end.
  Definition meta_destroy (m : meta) : M unit := put (m_uri m);; put (m_resources m).
  Definition deferstack_push (uri pp : nat) : M unit := get uri;; get pp;; push_defer (Deferred uri pp).
  (** src/cert_stack.c:189-205 [x509stack_pop]. *)
  Definition x509stack_pop : M unit := m <- pop_meta;; match m with None => crit | Some m => put (m_x509 m);; meta_destroy m end.
  (** src/cert_stack.c:210-234 [deferstack_pop]. *)
  Fixpoint pop_loop (n : nat) : M (option (nat * nat)) :=
    match n with
    | O => ret None
    | S n =>
        d <- pop_defer;;
        match d with
        | None => ret None
        | Some Separator => x509stack_pop;; pop_loop n
        | Some (Deferred uri pp) => get uri;; get pp;; defer_destroy (Deferred uri pp);; ret (Some (uri, pp))
        end
    end.
  Definition deferstack_pop : M (option (nat * nat)) := fun s => pop_loop (S (length (defers s))) s.
  (** src/cert_stack.c:287-327 [x509stack_push], 336-348 [x509stack_cancel], 144-173 [certstack_destroy]. *)
  Definition x509stack_push (uri x509 : nat) : M Z :=
    get uri;;
    resources <- create false;;
    e <- ask;;
    if negb (e =? 0) then put resources;; put uri;; ret e
    else
      p <- ask;;
      if negb (p =? 0) then put resources;; put uri;; ret p
      else push_defer Separator;; push_meta {| m_uri := uri; m_x509 := x509; m_resources := resources |};; ret 0.
  Definition x509stack_cancel : M unit := x509stack_pop;; d <- pop_defer;; match d with None => crit | Some d => defer_destroy d end.
  Fixpoint destroy_defers (n : nat) : M unit := match n with O => ret tt | S n => d <- pop_defer;; match d with None => ret tt | Some d => defer_destroy d;; destroy_defers n end end.
  Fixpoint destroy_metas (n : nat) : M unit := match n with O => ret tt | S n => m <- pop_meta;; match m with None => ret tt | Some m => put (m_x509 m);; meta_destroy m;; destroy_metas n end end.
  Definition certstack_destroy : M unit := fun s => (destroy_defers (length (defers s));; destroy_metas (length (metas s))) s.

  (** src/rpp.c:196-222 [__cert_traverse], 227-256 [rpp_traverse]. *)
  Definition rpp_traverse (pp : nat) : M unit :=
    k <- get_kids pp;;
    each (fun u => deferstack_push u pp) (rev (of_kind KCert k));;
    each (fun u => object_traverse true u pp) (of_kind KRoa k);;
    each (fun u => object_traverse false u pp) (of_kind KGbr k).

  (** src/object/certificate.c:1910-2018 [certificate_traverse] *)
  Definition certificate_traverse (parent : option nat) (cert_uri : nat) : M Z :=
    d <- depth;;
    if Nat.leb max_cert_depth d then ret 22
    else
      use cert_uri;;
      x <- rpp_crl parent;;
      if negb (fst x =? 0) then ret (fst x)
      else
        e <- ask;;
        if negb (e =? 0) then ret e
        else
          x509 <- create false;;
          e <- certificate_validate_chain x509 (snd x);;
          if negb (e =? 0) then put x509;; ret e
          else
            e <- ask;;
            if negb (e =? 0) then put x509;; ret (Z.max 0 e)    (* get_certificate_type(), certificate_validate_rfc6487(); negative: it's not a CA's, so it's ignored *)
            else
              n <- ask;;
              l <- handle_extensions (match parent with None => false | Some _ => true end) false (Z.to_nat n) no_slots;;
              e <- (if negb (fst l =? 0) then ret (fst l) else refs_validate_ca (snd l) parent);;
              refs_cleanup (snd l);;
              if negb (e =? 0) then sia_uris_cleanup (snd l);; put x509;; ret e
              else
                each use (rpps (snd l));; d <- ask;;
                match nth_error (rpps (snd l)) (Z.to_nat d), mft (snd l) with   (* download_rpp(): one of them, or none *)
                | Some downloaded, Some m =>
                    e <- x509stack_push cert_uri x509;;
                    if negb (e =? 0) then sia_uris_cleanup (snd l);; put x509;; ret e
                    else
                      https <- ask;;
                      pp <- handle_manifest m (if https =? 0 then None else Some downloaded);;
                      match pp with
                      | None => x509stack_cancel;; sia_uris_cleanup (snd l);; ret 22
                      | Some pp => rpp_traverse pp;; rpp_refput pp;; sia_uris_cleanup (snd l);; ret 0
                      end
                | None, _ => sia_uris_cleanup (snd l);; put x509;; ret 22
                | Some _, None => crit                                          (* handle_manifest(NULL) *)
                end.

  (** src/object/tal.c:339-414 [handle_tal_uri].  [n]: out of it, the loop is abandoned. *)
  Fixpoint traverse_deferred (n : nat) : M unit :=
    match n with
    | O => fun _ => Err EAGAIN
    | S n =>
        d <- deferstack_pop;;
        match d with
        | None => ret tt
        | Some (uri, pp) => certificate_traverse (Some pp) uri;; put uri;; rpp_refput pp;; traverse_deferred n
        end
    end.
  Definition handle_tal_uri (n : nat) (uri : nat) : M Z :=
    use uri;; c <- ask;;
    e <- (if negb (c =? 0) then ret 22
          else e <- certificate_traverse None uri;; if negb (e =? 0) then ret e else traverse_deferred n;; ret 0);;
    certstack_destroy;; ret e.
End Validation.
