(** Manifests: their dates, and the publication point built out of their lists of
    files.

    Models src/object/manifest.c, src/asn1/asn1c/GeneralizedTime.c
    [asn_GT2time_frac], src/crypto/hash.c [hash_validate_mft_file], src/rpp.c and
    src/log.c [incidence].  Decoding, hashing, signatures and the other checks on
    a signed object are parameters. *)
From Coq Require Import String.
From Verif Require Import Base CString CLib PathBuilder.
Notation length := List.length.

(** src/incidence/incidence.h [enum incidence_action]. *)
Inductive action := INAC_IGNORE | INAC_WARN | INAC_ERROR.
(** src/log.c:671-689 [incidence]. *)
Definition incidence (a : action) : Z := match a with INAC_IGNORE | INAC_WARN => 0 | INAC_ERROR => -22 end.

(** ** Dates *)

(** [struct tm], of its fields those compared. *)
Record tm := { tm_year : Z; tm_mon : Z; tm_mday : Z; tm_hour : Z; tm_min : Z; tm_sec : Z }.

(** src/asn1/asn1c/GeneralizedTime.c:300-310, macro B2F: appends the digit [*buf]
    to [var].  [inr]: garbage.  Reading at the end of the buffer is [UB]. *)
Definition parse (A : Type) := res (option (A * list Z)).
Definition digit (var : Z) (buf : list Z) : parse Z :=
  match buf with
  | [] => UB
  | ch :: buf => if (ch <? 48) || (57 <? ch) then Ok None else Ok (Some (var * 10 + (ch - 48), buf))
  end.
Definition then_ {A B} (p : parse A) (k : A -> list Z -> parse B) : parse B :=
  match p with Ok (Some (a, buf)) => k a buf | Ok None => Ok None | Err e => Err e | UB => UB end.
(** src/asn1/asn1c/GeneralizedTime.c:326-341 and 343-358: minutes, seconds. *)
Definition two_digits (buf : list Z) : parse Z :=
  match buf with
  | [] => Ok None
  | ch :: buf => if (ch <? 48) || (57 <? ch) then Ok None
                 else match buf with [] => Ok None | _ => digit (ch - 48) buf end
  end.
(** src/asn1/asn1c/GeneralizedTime.c:370-386: the digits of a fraction (their value
    isn't used). *)
Fixpoint skip_digits (buf : list Z) : list Z :=
  match buf with
  | ch :: buf' => if (48 <=? ch) && (ch <=? 57) then skip_digits buf' else buf
  | [] => []
  end.
(** src/asn1/asn1c/GeneralizedTime.c:280-418 [asn_GT2time_frac] (by [asn_GT2time]). *)
Definition asn_GT2time (st : list Z) : res (option tm) :=
  if (length st <? 10)%nat then Ok None else
  let r :=
    then_ (digit 0 st) (fun y buf => then_ (digit y buf) (fun y buf => then_ (digit y buf) (fun y buf => then_ (digit y buf) (fun y buf =>
    then_ (digit 0 buf) (fun mo buf => then_ (digit mo buf) (fun mo buf =>
    then_ (digit 0 buf) (fun d buf => then_ (digit d buf) (fun d buf =>
    then_ (digit 0 buf) (fun h buf => then_ (digit h buf) (fun h buf =>
    then_ (two_digits buf) (fun mi buf =>
    then_ (two_digits buf) (fun s buf =>
    match buf with
    | [] => Ok None
    | c :: buf' =>
        let buf := if (c =? 44) || (c =? 46) then skip_digits buf' else buf in
        match buf with
        | [] => Ok None
        | c :: _ =>
            if negb (c =? 90) then Ok None
            else if (12 <? mo) || (mo <? 1) || (31 <? d) || (d <? 1) || (23 <? h) || (60 <? s) then Ok None
            else Ok (Some ({| tm_year := y - 1900; tm_mon := mo - 1; tm_mday := d; tm_hour := h; tm_min := mi; tm_sec := s |}, buf))
        end
    end)))))))))))) in
  match r with Ok (Some (t, _)) => Ok (Some t) | Ok None => Ok None | Err e => Err e | UB => UB end.

(** src/object/manifest.c:39-57 [tm_cmp]. *)
Definition tm_cmp (a b : tm) : Z :=
  if tm_year a <? tm_year b then -1 else if tm_year b <? tm_year a then 1 else
  if tm_mon a <? tm_mon b then -1 else if tm_mon b <? tm_mon a then 1 else
  if tm_mday a <? tm_mday b then -1 else if tm_mday b <? tm_mday a then 1 else
  if tm_hour a <? tm_hour b then -1 else if tm_hour b <? tm_hour a then 1 else
  if tm_min a <? tm_min b then -1 else if tm_min b <? tm_min a then 1 else
  if tm_sec a <? tm_sec b then -1 else if tm_sec b <? tm_sec a then 1 else 0.

(** src/object/manifest.c:59-113 [validate_dates]: the error.  [now]: the current
    time, or the error of get_current_time or gmtime_r. *)
Definition validate_dates (this next : list Z) (now : Z + tm) (stale : action) : res Z :=
  bind (asn_GT2time this) (fun t => match t with None => Ok (-22) | Some thisUpdate =>
  bind (asn_GT2time next) (fun t => match t with None => Ok (-22) | Some nextUpdate =>
  if 0 <? tm_cmp thisUpdate nextUpdate then Ok (-22) else
  match now with
  | inl e => Ok e
  | inr now =>
      if tm_cmp now thisUpdate <? 0 then Ok (-22)
      else if 0 <? tm_cmp now nextUpdate then Ok (incidence stale)
      else Ok 0
  end end) end).

(** ** The list of files *)

(** src/asn1/asn1c/FileAndHash.h: an entry: a name (IA5String) and a hash (BIT
    STRING: its bytes and the number of unused bits). *)
Record fah := { f_file : list Z; f_hash : list Z; f_unused : Z }.

(** src/object/manifest.c:201-207: the Fisher-Yates shuffle.  [count] is an int, [i]
    and [j] are unsigned.  [rnd]: what rand_r returns.  Division by zero, and an
    access out of bounds, are [UB]. *)
Fixpoint shuffle_loop (fuel : nat) (rnd : nat -> Z) (i : Z) (arr : list fah) : res (list fah) :=
  let count := Z.of_nat (length arr) in
  if i <? wrap32 (count - 1) then
    match fuel with
    | O => UB
    | S fuel =>
        let d := wrap32 (count - i) in
        if d =? 0 then UB
        else
          let j := wrap32 (i + rnd (Z.to_nat i) mod d) in
          match nth_error arr (Z.to_nat j), nth_error arr (Z.to_nat i) with
          | Some tmp, Some x => shuffle_loop fuel rnd (wrap32 (i + 1)) (upd (upd arr (Z.to_nat j) x) (Z.to_nat i) tmp)
          | _, _ => UB
          end
    end
  else Ok arr.
Definition shuffle (rnd : nat -> Z) (arr : list fah) : res (list fah) := shuffle_loop (S (length arr)) rnd 0 arr.

(** src/common.c:17-29 [str_ends_with]. *)
Definition str_ends_with (s suffix : list Z) : bool :=
  if (length s <? length suffix)%nat then false
  else list_eqb Z.eqb (skipn (length s - length suffix) s) suffix.

(** src/rpp.c:10-44 [struct rpp]. *)
Record rpp := { pp_certs : list rpki_uri; pp_crl : option rpki_uri; pp_roas : list rpki_uri; pp_gbrs : list rpki_uri }.
(** src/rpp.c:46-62 [rpp_create]. *)
Definition rpp_create : rpp := {| pp_certs := []; pp_crl := None; pp_roas := []; pp_gbrs := [] |}.
(** src/rpp.c:87-91 [rpp_add_cert]. *)
Definition rpp_add_cert (pp : rpp) (u : rpki_uri) : rpp := {| pp_certs := pp_certs pp ++ [u]; pp_crl := pp_crl pp; pp_roas := pp_roas pp; pp_gbrs := pp_gbrs pp |}.
(** src/rpp.c:94-98 [rpp_add_roa]. *)
Definition rpp_add_roa (pp : rpp) (u : rpki_uri) : rpp := {| pp_certs := pp_certs pp; pp_crl := pp_crl pp; pp_roas := pp_roas pp ++ [u]; pp_gbrs := pp_gbrs pp |}.
(** src/rpp.c:101-105 [rpp_add_ghostbusters]. *)
Definition rpp_add_ghostbusters (pp : rpp) (u : rpki_uri) : rpp := {| pp_certs := pp_certs pp; pp_crl := pp_crl pp; pp_roas := pp_roas pp; pp_gbrs := pp_gbrs pp ++ [u] |}.
(** src/rpp.c:108-117 [rpp_add_crl]. *)
Definition rpp_add_crl (pp : rpp) (u : rpki_uri) : option rpp :=
  match pp_crl pp with
  | Some _ => None
  | None => Some {| pp_certs := pp_certs pp; pp_crl := Some u; pp_roas := pp_roas pp; pp_gbrs := pp_gbrs pp |}
  end.

(** errno values. *)
Definition c_ENOENT : Z := 2. Definition c_EACCES : Z := 13.

Section Building.
  (** Where the cache is; see PathBuilder. *)
  Variable J : Z.
  Variable repository : list Z.
  Variable tal notif : option (list Z).
  (** The SHA-256 of a local file, or the error. *)
  Variable hash_file : list Z -> Z + list Z.
  (** The configured incidences. *)
  Variable not_found not_match : action.
  Variable rnd : nat -> Z.

  (** src/crypto/hash.c:106-140 [hash_validate_mft_file]. *)
  Definition hash_validate_mft_file (u : rpki_uri) (f : fah) : Z :=
    if negb (f_unused f =? 0) then -22
    else match hash_file (u_local u) with
         | inl e => if (e =? c_EACCES) || (e =? c_ENOENT)
                    then (if negb (incidence not_found =? 0) then -22 else e)
                    else (if e <? 0 then e else - e)
         | inr h => if list_eqb Z.eqb (f_hash f) h then 0 else incidence not_match
         end.

  (** src/object/manifest.c:209-256: the loop of [build_rpp]. *)
  Fixpoint build_loop (mft : rpki_uri) (l : list fah) (pp : rpp) : res rpp :=
    match l with
    | [] => Ok pp
    | f :: l =>
        bind (uri_create_mft J repository tal notif mft (f_file f)) (fun u =>
        let e := hash_validate_mft_file u f in
        if e <? 0 then Err EINVAL
        else if 0 <? e then build_loop mft l pp
        else if str_ends_with (u_global u) (cstr ".cer") then build_loop mft l (rpp_add_cert pp u)
        else if str_ends_with (u_global u) (cstr ".roa") then build_loop mft l (rpp_add_roa pp u)
        else if str_ends_with (u_global u) (cstr ".crl") then
          match rpp_add_crl pp u with None => Err EINVAL | Some pp => build_loop mft l pp end
        else if str_ends_with (u_global u) (cstr ".gbr") then build_loop mft l (rpp_add_ghostbusters pp u)
        else build_loop mft l pp)
    end.
  (** src/object/manifest.c:184-270 [build_rpp]. *)
  Definition build_rpp (mft : rpki_uri) (l : list fah) : res rpp :=
    bind (shuffle rnd l) (fun l =>
    bind (build_loop mft l rpp_create) (fun pp =>
    match pp_crl pp with None => Err EINVAL | Some _ => Ok pp end)).

  (** src/asn1/asn1c/Manifest.h.  [m_version]: absent; or whether it's an unsigned
      long, and which.  [m_alg]: the error of validate_cms_hashing_algorithm_oid. *)
  Record manifest := { m_version : option (option Z); m_number : list Z; m_this : list Z; m_next : list Z; m_alg : Z; m_files : list fah }.
  (** src/object/manifest.c:115-182 [validate_manifest]: the error. *)
  Definition validate_manifest (now : Z + tm) (stale : action) (m : manifest) : res Z :=
    let version := match m_version m with
                   | None => 0
                   | Some None => -22
                   | Some (Some v) => if negb (v =? 0) then -22 else 0
                   end in
    if negb (version =? 0) then Ok version
    else if (20 <? length (m_number m))%nat then Ok (-22)
    else bind (validate_dates (m_this m) (m_next m) now stale) (fun e =>
         if negb (e =? 0) then Ok e else Ok (m_alg m)).

  (** src/object/manifest.c:276-341 [handle_manifest].  [cage]: the manifest's URI, or
      the error; [decoded]: of decoding; [crl], [sobj], [refs]: the errors of rpp_crl,
      signed_object_validate and refs_validate_ee. *)
  Definition handle_manifest (now : Z + tm) (stale : action) (cage : Z + rpki_uri) (decoded : Z + manifest)
      (crl : rpp -> Z) (sobj : Z) (refs : rpp -> Z) : res (Z + rpp) :=
    match cage with
    | inl e => Ok (inl e)
    | inr uri =>
        match decoded with
        | inl e => Ok (inl e)
        | inr m =>
            match build_rpp uri (m_files m) with
            | UB => UB
            | Err _ => Ok (inl (-22))
            | Ok pp =>
                if negb (crl pp =? 0) then Ok (inl (crl pp))
                else if negb (sobj =? 0) then Ok (inl sobj)
                else bind (validate_manifest now stale m) (fun e =>
                     if negb (e =? 0) then Ok (inl e)
                     else if negb (refs pp =? 0) then Ok (inl (refs pp))
                     else Ok (inr pp))
            end
        end
    end.
End Building.
