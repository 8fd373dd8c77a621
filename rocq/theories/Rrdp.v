(** RRDP (RFC 8182): hash attributes, the delta list of a notification, and the
    application of snapshots and deltas to the local files.

    Models src/rrdp.c, together with the parts of src/xml/relax_ng.c,
    src/crypto/hash.c, src/http/http.c and src/cache/local_cache.c it calls. *)
From Coq Require Import String.
From Verif Require Import Base CString CLib PathBuilder.
Notation length := List.length.

(** ** Attributes *)

(** src/rrdp.c:319-329 [hexchar2uint]. *)
Definition hexchar2uint (c : Z) : Z :=
  if (48 <=? c) && (c <=? 57) then c - 48
  else if (97 <=? c) && (c <=? 102) then c - 97 + 10
  else if (65 <=? c) && (c <=? 70) then c - 65 + 10
  else 32.
(** src/rrdp.c:342-352: the loop, from byte [i], [n] bytes to go.  Reads past
    the string (its NUL included) are [UB]. *)
Fixpoint hex_loop (hexstr : list Z) (n i : nat) : res (list Z) :=
  match n with
  | O => Ok []
  | S n' =>
      match nth_error hexstr (2 * i), nth_error hexstr (2 * i + 1) with
      | Some c1, Some c2 =>
          let d1 := hexchar2uint c1 in
          if 15 <? d1 then Err EINVAL
          else let d2 := hexchar2uint c2 in
               if 15 <? d2 then Err EINVAL
               else bind (hex_loop hexstr n' (S i)) (fun r => Ok (Z.lor (Z.shiftl d1 4) d2 :: r))
      | _, _ => UB
      end
  end.
(** src/rrdp.c:331-361 [hexstr2sha256]. *)
Definition hexstr2sha256 (hexstr : list Z) : res (list Z) :=
  if negb (Nat.eqb (length hexstr) (2 * 32)) then Err EINVAL else hex_loop hexstr 32 0.

(** BN_dec2bn() (libcrypto): '-'?, then decimal digits; what follows the digits
    is ignored; no digits is an error ([None]). *)
Definition BN_dec2bn (s : list Z) : option Z :=
  let '(neg, t) := match s with c :: t => if c =? 45 then (true, t) else (false, s) | [] => (false, []) end in
  match digits 0 0 t with
  | (_, O, _) => None
  | (v, _, _) => Some (if neg then - v else v)
  end.

(** ** The XML reader *)

(** A node as libxml2's xmlTextReader yields it.  [n_value]: what
    xmlTextReaderValue() returns; [n_valid]: whether xmlTextReaderIsValid() is
    positive once the node has been read (the RELAX NG schema of
    src/xml/relax_ng.h). *)
Inductive node_type := NElement | NEndElement | NOther.
Record node := { n_type : node_type; n_name : list Z; n_ns : list Z; n_attrs : list (list Z * list Z);
                 n_value : option (list Z); n_valid : bool }.
(** A document: its nodes, and whether, after them, the reader reports the end
    of a valid document (otherwise: read error, or not valid). *)
Record xdoc := { d_nodes : list node; d_ok : bool }.

(** xmlTextReaderGetAttribute(). *)
Fixpoint get_attr (a : list Z) (l : list (list Z * list Z)) : option (list Z) :=
  match l with
  | [] => None
  | (k, v) :: t => if list_eqb Z.eqb k a then Some v else get_attr a t
  end.
Definition attr (n : node) (a : list Z) : option (list Z) := get_attr a (n_attrs n).

Definition RRDP_NAMESPACE : list Z := cstr "http://www.ripe.net/rpki/rrdp".
Definition is_elem (n : node) (name : list Z) : bool := list_eqb Z.eqb (n_name n) name.

(** src/rrdp.c:32-41 [struct rrdp_serial], [struct rrdp_session]. *)
Record session := { s_id : list Z; s_serial : Z }.

(** src/rrdp.c:275-297 [parse_ulong].  On ERANGE the error message reads the
    string it has just freed: [UB]. *)
Definition parse_ulong (n : node) (a : list Z) : res Z :=
  match attr n a with
  | None => Err EINVAL
  | Some s => let '(v, erange, _) := strtoul s in if (erange : bool) then UB else Ok v
  end.
(** src/rrdp.c:390-405 [validate_version]. *)
Definition validate_version (n : node) (expected : Z) : res unit :=
  bind (parse_ulong n (cstr "version")) (fun v => if negb (v =? expected) then Err EINVAL else Ok tt).
(** src/rrdp.c:407-427 [parse_serial]. *)
Definition parse_serial (n : node) : res Z :=
  match attr n (cstr "serial") with
  | None => Err EINVAL
  | Some s => match BN_dec2bn s with
              | None => Err EINVAL
              | Some v => if v <? 0 then Err EINVAL else Ok v
              end
  end.
(** src/rrdp.c:429-460 [parse_session]. *)
Definition parse_session (n : node) : res session :=
  if negb (list_eqb Z.eqb (n_ns n) RRDP_NAMESPACE) then Err EINVAL
  else bind (validate_version n 1) (fun _ =>
       match attr n (cstr "session_id") with
       | None => Err EINVAL
       | Some id => bind (parse_serial n) (fun s => Ok {| s_id := id; s_serial := s |})
       end).
(** src/rrdp.c:462-487 [validate_session]. *)
Definition validate_session (n : node) (expected : session) : res unit :=
  bind (parse_session n) (fun actual =>
  if negb (list_eqb Z.eqb (s_id expected) (s_id actual)) then Err EINVAL
  else if negb (s_serial actual =? s_serial expected) then Err EINVAL
  else Ok tt).

(** src/rrdp.c:84-88 [hash_requirement]. *)
Inductive hash_requirement := HR_MANDATORY | HR_OPTIONAL | HR_IGNORE.
(** src/rrdp.c:363-388 [parse_hash]. *)
Definition parse_hash (n : node) (hr : hash_requirement) : res (option (list Z)) :=
  match hr with
  | HR_IGNORE => Ok None
  | _ => match attr n (cstr "hash") with
         | None => match hr with HR_MANDATORY => Err EINVAL | _ => Ok None end
         | Some x => match hexstr2sha256 x with Ok h => Ok (Some h) | Err _ => Err EINVAL | UB => UB end
         end
  end.

(** src/rrdp.c:43-48 [struct file_metadata]: the URI's local path and the hash. *)
Record metadata := { m_uri : rpki_uri; m_hash : option (list Z) }.
(** src/rrdp.c:50-54 [struct notification_delta]. *)
Record ndelta := { nd_serial : Z; nd_meta : metadata }.
(** src/rrdp.c:59-65 [struct update_notification]. *)
Record notification := { nt_session : option session; nt_snapshot : option metadata; nt_deltas : list ndelta }.

(** ** Sorting the delta list *)

(** src/rrdp.c:664-700 [swap_until_sorted]: one round of the loop is one unit of
    [fuel]; running out of it stands for an endless loop ([UB], as is an access
    outside of the array). *)
Fixpoint swap_until_sorted (fuel : nat) (a : list ndelta) (i : nat) (min max : Z) : res (list ndelta) :=
  match fuel with
  | O => UB
  | S f =>
      match nth_error a i with
      | None => UB
      | Some di =>
          if nd_serial di <? min then Err EINVAL
          else if max <? nd_serial di then Err EINVAL
          else let target := nd_serial di - min in
               (* BN_get_word *)
               let target := if ULONG_MAX <? target then ULONG_MAX else target in
               if Z.of_nat i =? target then Ok a
               else if target <? Z.of_nat (length a) then
                 let t := Z.to_nat target in
                 match nth_error a t with
                 | None => UB
                 | Some dt =>
                     if nd_serial dt =? nd_serial di then Err EINVAL
                     else swap_until_sorted f (upd (upd a t di) i dt) i min max
                 end
               else UB
      end
  end.
(** src/rrdp.c:738-743: the loop of [sort_deltas], from index [i]. *)
Fixpoint sort_loop (n i : nat) (a : list ndelta) (min max : Z) : res (list ndelta) :=
  match n with
  | O => Ok a
  | S n' => bind (swap_until_sorted (S (length a)) a i min max) (fun a => sort_loop n' (S i) a min max)
  end.
(** src/rrdp.c:702-750 [sort_deltas]; [max]: the notification's serial. *)
Definition sort_deltas (max : Z) (a : list ndelta) : res (list ndelta) :=
  match a with
  | [] => Ok a
  | _ => let min := max - (Z.of_nat (length a) - 1) in
         if min <? 0 then Err EINVAL else sort_loop (length a) 0 a min max
  end.

(** ** The local files and the environment *)

(** What the file system answers to a write: done; refused, the file being left
    with [left]; or reported as done although only [c] reached the file (fclose()
    fails and src/file.c:60-65 [file_close] only logs it). *)
Inductive wr := WrOk | WrFail (left : option (list Z)) | WrTrunc (c : list Z).
(** ... to a deletion: done; refused, the file being gone or not. *)
Inductive dl := DelOk | DelFail (gone : bool).
(** What a GET produces: an error, "not modified", or a new body. *)
Inductive http := HErr | HSame | HBody (b : list Z).

(** The local files, the downloads attempted since the run began (with their
    results), and how many system operations were performed so far. *)
Record world := { w_files : list Z -> option (list Z); w_attempts : list (list Z * option errcode); w_ops : nat }.
(** The environment answers operation [n]; the process may die during it. *)
Record env := { e_dies : nat -> bool; e_http : nat -> http; e_write : nat -> wr; e_del : nat -> dl;
                e_rm : nat -> list Z -> bool; e_read : nat -> bool }.

Inductive out (A : Type) := Ret (a : A) | Fail (e : errcode) | Crash | Undef.
Arguments Ret {A} a. Arguments Fail {A} e. Arguments Crash {A}. Arguments Undef {A}.
Definition io (A : Type) := world -> world * out A.
Definition ret {A} (a : A) : io A := fun w => (w, Ret a).
Definition fail {A} (e : errcode) : io A := fun w => (w, Fail e).
Definition andthen {A B} (m : io A) (f : A -> io B) : io B :=
  fun w => let '(w1, r) := m w in
           match r with Ret a => f a w1 | Fail e => (w1, Fail e) | Crash => (w1, Crash) | Undef => (w1, Undef) end.
Notation "'let!' x ':=' m 'in' f" := (andthen m (fun x => f)) (at level 200, x name, m at level 100, f at level 200).
Definition pure {A} (r : res A) : io A :=
  fun w => (w, match r with Ok a => Ret a | Err e => Fail e | UB => Undef end).

Definition path_eqb := list_eqb Z.eqb.
Definition set_file (p : list Z) (c : option (list Z)) (fs : list Z -> option (list Z)) : list Z -> option (list Z) :=
  fun q => if path_eqb q p then c else fs q.
(** [q] is [dir], or is below it. *)
Definition at_or_below (dir q : list Z) : bool := path_eqb q dir || str_starts_with q (dir ++ [47]).

Section Rrdp.
  (** The process' memory and configuration; SHA-256; libxml2 (the file's bytes
      to nodes); base64_read() (src/rrdp.c:231-273). *)
  Variable J : Z.
  Variable repository : list Z.
  Variable tal : option (list Z).
  Variable http_enabled : bool.
  Variable sha256 : list Z -> list Z.
  Variable xml : list Z -> xdoc.
  Variable base64 : list Z -> option (list Z).
  Variable E : env.

  (** One system operation: [f] computes its effect and answer. *)
  Definition sysop {A} (f : nat -> (list Z -> option (list Z)) -> (list Z -> option (list Z)) * out A) : io A :=
    fun w => let '(fs, r) := f (w_ops w) (w_files w) in
             ({| w_files := fs; w_attempts := w_attempts w; w_ops := S (w_ops w) |},
              if e_dies E (w_ops w) then Crash else r).

  (** src/crypto/hash.c:32-36 [hash_file] with the comparison of
      src/crypto/hash.c:146-164 [hash_validate_file]. *)
  Definition hash_validate_file (p : list Z) (expected : list Z) : io unit :=
    sysop (fun n fs => (fs,
      match fs p with
      | None => Fail ENOENT
      | Some c => if negb (e_read E n) then Fail EIO
                  else if path_eqb expected (sha256 c) then Ret tt else Fail EINVAL
      end)).
  (** src/rrdp.c:150-154 [validate_hash]; a missing hash has length zero, which
      matches nothing. *)
  Definition validate_hash (m : metadata) : io unit :=
    hash_validate_file (u_local (m_uri m)) (match m_hash m with Some h => h | None => [] end).

  (** src/rrdp.c:577-603 [write_file]. *)
  Definition write_file (p c : list Z) : io unit :=
    sysop (fun n fs =>
      match e_write E n with
      | WrOk => (set_file p (Some c) fs, Ret tt)
      | WrFail lft => (set_file p lft fs, Fail EIO)
      | WrTrunc c' => (set_file p (Some c') fs, Ret tt)
      end).
  (** src/rrdp.c:606-611 [delete_file] and
      src/common.c:351-403 [delete_dir_recursive_bottom_up] (only the file). *)
  Definition delete_file (p : list Z) : io unit :=
    sysop (fun n fs =>
      match fs p with
      | None => (fs, Fail ENOENT)
      | Some _ => match e_del E n with
                  | DelOk => (set_file p None fs, Ret tt)
                  | DelFail gone => (if gone then set_file p None fs else fs, Fail EACCES)
                  end
      end).
  (** src/rrdp.c:796-803 [delete_rpp]; the outcome of file_rm_rf()
      (src/file.c:138-143) is ignored. *)
  Definition delete_rpp (notif : list Z) : io unit :=
    let! ws := pure (bind (get_rrdp_workspace J repository tal notif) pb_string) in
    sysop (fun n fs => (fun q => if at_or_below ws q && e_rm E n q then None else fs q, Ret tt)).

  (** src/rrdp.c:495-527 [parse_file_metadata]; [notif]: the notification's
      global URI. *)
  Definition parse_file_metadata (n : node) (notif : option (list Z)) (hr : hash_requirement) : res metadata :=
    match attr n (cstr "uri") with
    | None => Err EINVAL
    | Some u =>
        bind (uri_create J repository tal (match notif with Some _ => UT_CAGED | None => UT_HTTPS end) notif u) (fun uri =>
        match hr with
        | HR_IGNORE => Ok {| m_uri := uri; m_hash := None |}
        | _ => bind (parse_hash n hr) (fun h => Ok {| m_uri := uri; m_hash := h |})
        end)
    end.
  (** src/rrdp.c:529-562 [parse_publish]: also reads the next node, which is
      returned as consumed. *)
  Definition parse_publish (n : node) (rest : list node) (notif : list Z) (hr : hash_requirement)
    : io (metadata * list Z * list node) :=
    let! m := pure (parse_file_metadata n (Some notif) hr) in
    match rest with
    | [] => fail EINVAL
    | t :: rest' =>
        match n_value t with
        | None => fail EINVAL
        | Some s =>
            match base64 s with
            | None => fail EINVAL
            | Some content =>
                match m_hash m with
                | Some _ => let! _ := validate_hash m in ret (m, content, rest')
                | None => ret (m, content, rest')
                end
            end
        end
    end.
  (** src/rrdp.c:613-627 [handle_publish]. *)
  Definition handle_publish (n : node) (rest : list node) (notif : list Z) (hr : hash_requirement) : io (list node) :=
    let! t := parse_publish n rest notif hr in
    let '(m, content, rest') := t in
    let! _ := write_file (u_local (m_uri m)) content in
    ret rest'.
  (** src/rrdp.c:564-575 [parse_withdraw], 629-641 [handle_withdraw]. *)
  Definition handle_withdraw (n : node) (notif : list Z) : io unit :=
    let! m := pure (parse_file_metadata n (Some notif) HR_MANDATORY) in
    let! _ := validate_hash m in
    delete_file (u_local (m_uri m)).

  (** src/xml/relax_ng.c:118-139: the loop of [relax_ng_parse].  A callback
      returns the nodes it left unread. *)
  Fixpoint rng_loop (cb : node -> list node -> io (list node)) (fuel : nat) (nodes : list node) (ok : bool) : io unit :=
    match fuel with
    | O => fun w => (w, Undef)
    | S f =>
        match nodes with
        | [] => if ok then ret tt else fail EINVAL
        | n :: rest =>
            if negb (n_valid n) then fail EINVAL
            else let! rest' := cb n rest in rng_loop cb f rest' ok
        end
    end.
  (** src/xml/relax_ng.c:85-150 [relax_ng_parse]. *)
  Definition relax_ng_parse (p : list Z) (cb : node -> list node -> io (list node)) : io unit :=
    let! d := sysop (fun n fs => (fs, match fs p with
                                      | None => Fail EINVAL
                                      | Some c => if e_read E n then Ret (xml c) else Fail EINVAL
                                      end)) in
    rng_loop cb (S (length (d_nodes d))) (d_nodes d) (d_ok d).

  (** src/rrdp.c:805-831 [xml_read_snapshot]. *)
  Definition xml_read_snapshot (notif : list Z) (s : session) (n : node) (rest : list node) : io (list node) :=
    match n_type n with
    | NElement =>
        if is_elem n (cstr "publish") then handle_publish n rest notif HR_IGNORE
        else if is_elem n (cstr "snapshot") then let! _ := pure (validate_session n s) in ret rest
        else fail EINVAL
    | _ => ret rest
    end.
  (** src/rrdp.c:883-911 [xml_read_delta]. *)
  Definition xml_read_delta (notif : list Z) (s : session) (n : node) (rest : list node) : io (list node) :=
    match n_type n with
    | NElement =>
        if is_elem n (cstr "publish") then handle_publish n rest notif HR_OPTIONAL
        else if is_elem n (cstr "withdraw") then let! _ := handle_withdraw n notif in ret rest
        else if is_elem n (cstr "delta") then let! _ := pure (validate_session n s) in ret rest
        else fail EINVAL
    | _ => ret rest
    end.

  (** src/cache/local_cache.c:568-619 [cache_download] for an HTTPS URI (so
      that [get_url] is the identity), with src/http/http.c:409-454
      [http_download] (rename() is atomic).  Returns [changed].  Nodes are looked
      up by local path; all the attempts of [w_attempts] are recent. *)
  Fixpoint find_attempt (p : list Z) (l : list (list Z * option errcode)) : option (option errcode) :=
    match l with
    | [] => None
    | (q, r) :: t => if path_eqb q p then Some r else find_attempt p t
    end.
  Definition record_attempt (p : list Z) (r : option errcode) : io unit :=
    fun w => ({| w_files := w_files w; w_attempts := (p, r) :: w_attempts w; w_ops := w_ops w |}, Ret tt).
  (** The download proper; the error is a value, since the attempt is recorded
      anyway. *)
  Definition do_download (p : list Z) : io (bool * option errcode) :=
    if http_enabled then
      sysop (fun n fs =>
        match e_http E n with
        | HErr => (fs, Ret (false, Some EIO))
        | HSame => (fs, Ret (false, None))
        | HBody b => (set_file p (Some b) fs, Ret (true, None))
        end)
    else
      sysop (fun n fs => (fs, Ret (false, match fs p with Some _ => None | None => Some ENOENT end))).
  Definition cache_download (p : list Z) : io bool :=
    fun w =>
      match find_attempt p (w_attempts w) with
      | Some None => (w, Ret false)
      | Some (Some e) => (w, Fail e)
      | None => (let! r := do_download p in
                 let! _ := record_attempt p (snd r) in
                 match snd r with None => ret (fst r) | Some e => fail e end) w
      end.

  (** src/rrdp.c:833-848 [parse_snapshot]. *)
  Definition parse_snapshot (notif : list Z) (s : session) (snapshot : metadata) : io unit :=
    let! _ := validate_hash snapshot in
    relax_ng_parse (u_local (m_uri snapshot)) (xml_read_snapshot notif s).
  (** src/rrdp.c:913-929 [parse_delta]. *)
  Definition parse_delta (notif : list Z) (id : list Z) (d : ndelta) : io unit :=
    let! _ := validate_hash (nd_meta d) in
    relax_ng_parse (u_local (m_uri (nd_meta d))) (xml_read_delta notif {| s_id := id; s_serial := nd_serial d |}).
  (** "error = m; delete_file(p); return error": the deletion's own outcome is
      ignored, unless the process dies. *)
  Definition then_delete (m : io unit) (p : list Z) : io unit :=
    fun w => let '(w1, r) := m w in
             match r with
             | Crash => (w1, Crash)
             | Undef => (w1, Undef)
             | _ => let '(w2, r2) := delete_file p w1 in (w2, match r2 with Crash => Crash | _ => r end)
             end.
  (** src/rrdp.c:850-881 [handle_snapshot]. *)
  Definition handle_snapshot (notif : list Z) (s : session) (snapshot : metadata) : io unit :=
    let! _ := delete_rpp notif in
    let! _ := cache_download (u_local (m_uri snapshot)) in
    then_delete (parse_snapshot notif s snapshot) (u_local (m_uri snapshot)).
  (** src/rrdp.c:931-951 [handle_delta]. *)
  Definition handle_delta (notif : list Z) (id : list Z) (d : ndelta) : io unit :=
    let! _ := cache_download (u_local (m_uri (nd_meta d))) in
    then_delete (parse_delta notif id d) (u_local (m_uri (nd_meta d))).
  (** src/rrdp.c:988-992: the loop of [handle_deltas]. *)
  Fixpoint deltas_loop (notif : list Z) (id : list Z) (l : list ndelta) : io unit :=
    match l with
    | [] => ret tt
    | d :: t => let! _ := handle_delta notif id d in deltas_loop notif id t
    end.
  (** src/rrdp.c:953-995 [handle_deltas]; [old]: the serial of the cached
      files. *)
  Definition handle_deltas (notif : list Z) (s : session) (deltas : list ndelta) (old : Z) : io unit :=
    match deltas with
    | [] => fail ENOENT
    | _ =>
        let diff := s_serial s - old in
        if diff <? 0 then fail EINVAL
        else
          (* BN_get_word *)
          let diff := if ULONG_MAX <? diff then ULONG_MAX else diff in
          if (64 <? diff) || (Z.of_nat (length deltas) <? diff) then fail EINVAL
          else deltas_loop notif (s_id s) (skipn (length deltas - Z.to_nat diff) deltas)
    end.

  (** src/rrdp.c:643-662 [parse_notification_delta]. *)
  Definition parse_notification_delta (n : node) : res ndelta :=
    bind (parse_serial n) (fun s =>
    bind (parse_file_metadata n None HR_MANDATORY) (fun m =>
    Ok {| nd_serial := s; nd_meta := m |})).
  (** src/rrdp.c:752-780 [xml_read_notif].  At the end tag the session has been
      read, or [max_serial] is NULL ([UB], only reached with deltas). *)
  Definition xml_read_notif (nt : notification) (n : node) : res notification :=
    match n_type n with
    | NElement =>
        if is_elem n (cstr "delta") then
          bind (parse_notification_delta n) (fun d =>
          Ok {| nt_session := nt_session nt; nt_snapshot := nt_snapshot nt; nt_deltas := nt_deltas nt ++ [d] |})
        else if is_elem n (cstr "snapshot") then
          bind (parse_file_metadata n None HR_MANDATORY) (fun m =>
          Ok {| nt_session := nt_session nt; nt_snapshot := Some m; nt_deltas := nt_deltas nt |})
        else if is_elem n (cstr "notification") then
          bind (parse_session n) (fun s =>
          Ok {| nt_session := Some s; nt_snapshot := nt_snapshot nt; nt_deltas := nt_deltas nt |})
        else Err EINVAL
    | NEndElement =>
        if is_elem n (cstr "notification") then
          match nt_deltas nt, nt_session nt with
          | [], _ => Ok nt
          | _, None => UB
          | ds, Some s => bind (sort_deltas (s_serial s) ds) (fun ds' =>
              Ok {| nt_session := nt_session nt; nt_snapshot := nt_snapshot nt; nt_deltas := ds' |})
          end
        else Ok nt
    | NOther => Ok nt
    end.
  (** src/xml/relax_ng.c:118-139 with that callback, which only changes the
      structure it fills. *)
  Fixpoint notif_loop (nt : notification) (nodes : list node) (ok : bool) : res notification :=
    match nodes with
    | [] => if ok then Ok nt else Err EINVAL
    | n :: rest => if negb (n_valid n) then Err EINVAL
                   else bind (xml_read_notif nt n) (fun nt' => notif_loop nt' rest ok)
    end.
  Definition read_notification (content : list Z) : res notification :=
    notif_loop {| nt_session := None; nt_snapshot := None; nt_deltas := [] |} (d_nodes (xml content)) (d_ok (xml content)).
  (** src/rrdp.c:782-794 [parse_notification]. *)
  Definition parse_notification (p : list Z) : io notification :=
    let! c := sysop (fun n fs => (fs, match fs p with
                                      | None => Fail EINVAL
                                      | Some c => if e_read E n then Ret c else Fail EINVAL
                                      end)) in
    pure (read_notification c).

  (** src/rrdp.c:997-1021 [get_metadata]; [None]: there's no cached
      notification. *)
  Definition get_metadata (p : list Z) : io (option session) :=
    let! there := sysop (fun n fs => (fs, Ret (match fs p with Some _ => true | None => false end))) in
    if there then let! nt := parse_notification p in ret (nt_session nt) else ret None.

  (** A valid document has a session and a snapshot; the code dereferences both
      without looking. *)
  Definition rrdp_changed (notif : list Z) (old : option session) (nt : notification) : io unit :=
    match nt_session nt, nt_snapshot nt with
    | Some s, Some snapshot =>
        match old with
        | None => handle_snapshot notif s snapshot
        | Some o =>
            if negb (path_eqb (s_id o) (s_id s)) then handle_snapshot notif s snapshot
            else if negb (s_serial o =? s_serial s) then
              fun w => let '(w1, r) := handle_deltas notif s (nt_deltas nt) (s_serial o) w in
                       match r with
                       | Fail _ => handle_snapshot notif s snapshot w1
                       | _ => (w1, r)
                       end
            else ret tt
        end
    | _, _ => fun w => (w, Undef)
    end.
  (** src/rrdp.c:1030-1091 [rrdp_update]. *)
  Definition rrdp_update (notif : rpki_uri) : io unit :=
    let! old := get_metadata (u_local notif) in
    let! changed := cache_download (u_local notif) in
    if negb changed then ret tt
    else let! nt := parse_notification (u_local notif) in
         rrdp_changed (u_global notif) old nt.
End Rrdp.
