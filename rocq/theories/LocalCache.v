(** The local cache of one TAL: its index of downloaded URLs, the fallback
    between alternative URLs, and the cleanup of its directory.

    Models src/cache/local_cache.c. *)
From Coq Require Import String.
From Verif Require Import Base CString CLib PathBuilder Resources Rrdp Slurm.
Notation length := List.length.

(** src/types/uri.c:23-64 [struct rpki_uri], with its is_notif. *)
Record curi := { c_uri : rpki_uri; c_notif : bool }.
Definition c_local (u : curi) : list Z := u_local (c_uri u).
Definition c_global (u : curi) : list Z := u_global (c_uri u).
Definition c_type (u : curi) : uri_type := u_type (c_uri u).

(** src/cache/local_cache.c:20-36 [struct cache_node]. *)
Record cnode := { cn_url : curi; cn_ts : Z; cn_result : Z; cn_happened : bool; cn_sts : Z }.
(** src/cache/local_cache.c:38-42 [struct rpki_cache].  The hash table is the
    list of its nodes in insertion order; keys are the nodes' local paths. *)
Record cache := { ca_tal : list Z; ca_ht : list cnode; ca_startup : Z }.
Definition cn_key (n : cnode) : list Z := c_local (cn_url n).

Definition type_eqb (a b : uri_type) : bool :=
  match a, b with UT_RSYNC, UT_RSYNC | UT_HTTPS, UT_HTTPS | UT_CAGED, UT_CAGED => true | _, _ => false end.

(** src/cache/local_cache.c:303-310 [find_node]. *)
Fixpoint find_node (ht : list cnode) (key : list Z) : option cnode :=
  match ht with
  | [] => None
  | n :: t => if path_eqb (cn_key n) key then Some n else find_node t key
  end.
(** src/cache/local_cache.c:312-318 [add_node]. *)
Definition add_node (ht : list cnode) (n : cnode) : list cnode := ht ++ [n].
(** Changing the node found under [key] in place. *)
Fixpoint set_node (ht : list cnode) (key : list Z) (n' : cnode) : list cnode :=
  match ht with
  | [] => []
  | n :: t => if path_eqb (cn_key n) key then n' :: t else n :: set_node t key n'
  end.

(** What the cache does to the outside world, in order: GETs, rsyncs and (when
    the protocol is disabled) checks whether the file is there. *)
Inductive fetch := FHttp (url : list Z) | FRsync (url : list Z) | FCheck (path : list Z).
Record cworld := { cw_log : list fetch; cw_n : nat }.
(** The outside world's answers: the result of the nth fetch (0: success), and
    the clock read right after it. *)
Record cenv := { ce_result : nat -> Z; ce_clock : nat -> Z }.

Section LocalCache.
  Variable J : Z.
  Variable repository : list Z.
  Variables (rsync_enabled http_enabled : bool).
  Variable E : cenv.

  (** src/cache/local_cache.c:496-504: position right after the fourth slash. *)
  Fixpoint slash_end (c : list Z) (slashes pos : nat) : option nat * nat :=
    match c with
    | [] => (None, slashes)
    | x :: t => if x =? 47
                then if Nat.eqb (S slashes) 4 then (Some (S pos), S slashes) else slash_end t (S slashes) (S pos)
                else slash_end t slashes (S pos)
    end.
  (** src/cache/local_cache.c:452-536 [get_url]. *)
  Definition get_url (uri : curi) (tal : list Z) : res curi :=
    match c_type uri with
    | UT_RSYNC =>
        let guri := c_global uri in
        let mk g := bind (uri_create J repository (Some tal) UT_RSYNC None g) (fun u => Ok {| c_uri := u; c_notif := false |}) in
        match slash_end guri 0 0 with
        | (Some n, _) => mk (firstn n guri)
        | (None, slashes) =>
            if Nat.eqb slashes 3 && negb (nth (length guri - 1) guri 0 =? 47)
            then mk (guri ++ [47])
            else Err EINVAL
        end
    | _ => Ok uri
    end.

  (** src/cache/local_cache.c:538-542 [was_recently_downloaded]; difftime() is
      exact (below 2^53). *)
  Definition was_recently_downloaded (c : cache) (n : cnode) : bool := ca_startup c - cn_ts n <=? 0.

  (** src/cache/local_cache.c:587-603: the fetch. *)
  Definition fetch_of (url : curi) : option fetch :=
    match c_type url with
    | UT_RSYNC => Some (if rsync_enabled then FRsync (c_global url) else FCheck (c_local url))
    | UT_HTTPS => Some (if http_enabled then FHttp (c_global url) else FCheck (c_local url))
    | UT_CAGED => None
    end.
  (** src/cache/local_cache.c:568-619 [cache_download] ([changed] is in Rrdp.v).
      The error of [get_url] is E_INVAL, whatever it is. *)
  Definition cache_download (uri : curi) (cw : cache * cworld) : res ((cache * cworld) * Z) :=
    let '(c, w) := cw in
    match get_url uri (ca_tal c) with
    | UB => UB
    | Err _ => Ok (cw, E_INVAL)
    | Ok url =>
        let fresh := {| cn_url := url; cn_ts := 0; cn_result := 0; cn_happened := false; cn_sts := 0 |} in
        let '(ht, node) := match find_node (ca_ht c) (c_local url) with
                           | Some n => (ca_ht c, n)
                           | None => (add_node (ca_ht c) fresh, fresh)
                           end in
        if match find_node (ca_ht c) (c_local url) with
           | Some n => was_recently_downloaded c n
           | None => false
           end
        then Ok (cw, cn_result node)
        else
          match fetch_of (cn_url node) with
          | None => UB
          | Some f =>
              let error := ce_result E (cw_n w) in
              let now := ce_clock E (cw_n w) in
              if now =? -1 then UB
              else
                let node' := {| cn_url := cn_url node; cn_ts := now; cn_result := error;
                                cn_happened := if error =? 0 then true else cn_happened node;
                                cn_sts := if error =? 0 then now else cn_sts node |} in
                Ok (({| ca_tal := ca_tal c; ca_ht := set_node ht (cn_key node) node'; ca_startup := ca_startup c |},
                     {| cw_log := cw_log w ++ [f]; cw_n := S (cw_n w) |}), error)
          end
    end.

  (** ** Alternatives *)
  Section Alternatives.
    (** rrdp_update() and the caller's callback: any functions of the cache, the
        outside world and the caller's data. *)
    Variable D : Type.
    Definition astate := ((cache * cworld) * D)%type.
    Variable rrdp_update : curi -> astate -> res (astate * Z).
    Variable cb : curi -> astate -> res (astate * Z).
    Variables (http_priority rsync_priority : Z).
    Variable use_rrdp : bool.

    Definition is_https (u : curi) : bool := type_eqb (c_type u) UT_HTTPS.
    (** src/cache/local_cache.c:626-629: the update proper. *)
    Definition update (uri : curi) (s : astate) : res (astate * Z) :=
      if use_rrdp && is_https uri then rrdp_update uri s
      else bind (cache_download uri (fst s)) (fun '(cw, e) => Ok ((cw, snd s), e)).
    (** src/cache/local_cache.c:621-636 [download]. *)
    Definition download (uri : curi) (s : astate) : res (astate * Z) :=
      bind (update uri s) (fun '(s, error) =>
      if negb (error =? 0) then Ok (s, 1) else cb uri s).
    (** src/cache/local_cache.c:638-654 [download_uris]. *)
    Fixpoint download_uris (uris : list curi) (t : uri_type) (s : astate) : res (astate * Z) :=
      match uris with
      | [] => Ok (s, 1)
      | u :: rest =>
          if type_eqb (c_type u) t then
            bind (download u s) (fun '(s, error) => if error <=? 0 then Ok (s, error) else download_uris rest t s)
          else download_uris rest t s
      end.
    (** src/cache/local_cache.c:690-694: the loop when priorities are equal. *)
    Fixpoint download_all (uris : list curi) (s : astate) : res (astate * Z) :=
      match uris with
      | [] => Ok (s, 1)
      | u :: rest =>
          bind (download u s) (fun '(s, error) => if error <=? 0 then Ok (s, error) else download_all rest s)
      end.

    (** src/cache/local_cache.c:712-734 [choose_better]; whether the new one is
        returned.  ([old] and [new] may be the same node, hence [same].) *)
    Definition choose_better (old : option cnode) (new : cnode) (same : bool) : bool :=
      if negb (cn_happened new) then (* return old *) same
      else match old with
           | None => true
           | Some o =>
               if negb (cn_result o =? 0) && (cn_result new =? 0) then true
               else if (cn_result o =? 0) && negb (cn_result new =? 0) then same
               else if cn_sts o - cn_sts new <? 0 then true else same
           end.
    (** src/cache/local_cache.c:742-763 [__cache_recover]. *)
    Fixpoint cache_recover_loop (c : cache) (uris : list curi) (best : option (curi * cnode)) : res (option (curi * cnode)) :=
      match uris with
      | [] => Ok best
      | u :: rest =>
          match get_url u (ca_tal c) with
          | UB => UB
          | Err _ => cache_recover_loop c rest best
          | Ok url =>
              match find_node (ca_ht c) (c_local url) with
              | None => cache_recover_loop c rest best
              | Some n =>
                  let same := match best with Some (_, o) => path_eqb (cn_key o) (cn_key n) | None => false end in
                  if choose_better (option_map snd best) n same
                  then cache_recover_loop c rest (Some (u, n))
                  else cache_recover_loop c rest best
              end
          end
      end.
    (** src/cache/local_cache.c:765-771 [cache_recover]. *)
    Definition cache_recover (c : cache) (uris : list curi) : res (option curi) :=
      bind (cache_recover_loop c uris None) (fun b => Ok (option_map fst b)).

    Definition ESRCH_Z : Z := 3.
    (** src/cache/local_cache.c:668-701 [cache_download_alt]. *)
    Definition cache_download_alt (uris : list curi) (s : astate) : res (astate * Z) :=
      bind (if rsync_priority <? http_priority then
              bind (download_uris uris UT_HTTPS s) (fun '(s, error) =>
              if error <=? 0 then Ok (s, error) else download_uris uris UT_RSYNC s)
            else if http_priority <? rsync_priority then
              bind (download_uris uris UT_RSYNC s) (fun '(s, error) =>
              if error <=? 0 then Ok (s, error) else download_uris uris UT_HTTPS s)
            else download_all uris s) (fun '(s, error) =>
      if error <=? 0 then Ok (s, error)
      else bind (cache_recover (fst (fst s)) uris) (fun best =>
           match best with
           | Some u => cb u s
           | None => Ok (s, ESRCH_Z)
           end)).
  End Alternatives.

  (** ** Cleanup *)

  (** The TAL's directory tree: paths and whether they are directories. *)
  Definition tree := list (list Z * bool).
  Definition t_exists (p : list Z) (t : tree) : bool := existsb (fun e => path_eqb (fst e) p) t.
  (** The file system's answers: a stat() error other than ENOENT; which files
      rm -rf and remove() can delete. *)
  Record fsenv := { fe_stat : list Z -> bool; fe_rm : list Z -> bool }.
  Variable FE : fsenv.

  (** src/file.c:138-143 [file_rm_rf]: deletes some or all of what is at or
      below [p]. *)
  Definition rm_rf (p : list Z) (t : tree) : tree :=
    filter (fun e => negb (at_or_below p (fst e) && fe_rm FE (fst e))) t.
  (** src/types/uri.h:33-34 [uri_create_cage] (global URI ""). *)
  Definition cage_of (tal : list Z) (url : curi) : res (list Z) :=
    bind (uri_create J repository (Some tal) UT_CAGED (Some (c_global url)) []) (fun u => Ok (u_local u)).

  Definition delete_node (ht : list cnode) (n : cnode) : list cnode :=
    filter (fun m => negb (path_eqb (cn_key m) (cn_key n))) ht.
  (** src/cache/local_cache.c:801-815 [delete_node_and_cage]. *)
  Definition delete_node_and_cage (tal : list Z) (n : cnode) (ht : list cnode) (t : tree) : res (list cnode * tree) :=
    if c_notif (cn_url n) then
      match cage_of tal (cn_url n) with
      | UB => UB
      | Err _ => Ok (delete_node ht n, t)
      | Ok cage => Ok (delete_node ht n, rm_rf cage t)
      end
    else Ok (delete_node ht n, t).
  (** src/cache/local_cache.c:786-791 [is_node_fresh]. *)
  Definition is_node_fresh (n : cnode) (epoch : Z) : bool := epoch - cn_ts n <? 0.
  (** src/cache/local_cache.c:840-867 [cleanup_node]. *)
  Definition cleanup_node (tal : list Z) (last_week : Z) (n : cnode) (ht : list cnode) (t : tree) : res (list cnode * tree) :=
    let path := cn_key n in
    if negb (t_exists path t) && negb (fe_stat FE path) then delete_node_and_cage tal n ht t
    else if negb (is_node_fresh n last_week) then delete_node_and_cage tal n ht (rm_rf path t)
    else Ok (ht, t).
  (** src/cache/local_cache.c:975-976: the loop of [cache_cleanup]. *)
  Fixpoint cleanup_nodes (tal : list Z) (last_week : Z) (nodes : list cnode) (ht : list cnode) (t : tree) : res (list cnode * tree) :=
    match nodes with
    | [] => Ok (ht, t)
    | n :: rest => bind (cleanup_node tal last_week n ht t) (fun '(ht, t) => cleanup_nodes tal last_week rest ht t)
    end.

  (** src/cache/local_cache.c:890-897: one "do not clean" path; the C strings'
      terminators are the ends of the lists. *)
  Fixpoint is_cached1 (fpath npath : list Z) : bool :=
    match fpath, npath with
    | [], [] => true
    | [], n :: _ => n =? 47
    | f :: _, [] => f =? 47
    | f :: fs, n :: ns => if f =? n then is_cached1 fs ns else false
    end.
  (** src/cache/local_cache.c:876-902 [is_cached]. *)
  Definition is_cached (dnc : list (list Z)) (fpath : list Z) : bool := existsb (is_cached1 fpath) dnc.
  (** remove(3): files and empty directories. *)
  Definition remove (p : list Z) (t : tree) : tree :=
    if existsb (fun e => str_starts_with (fst e) (p ++ [47])) t then t
    else filter (fun e => negb (path_eqb (fst e) p && fe_rm FE (fst e))) t.
  (** src/cache/local_cache.c:904-913 [delete_if_unknown]. *)
  Definition delete_if_unknown (dnc : list (list Z)) (t : tree) (fpath : list Z) : tree :=
    if negb (is_cached dnc fpath) then remove fpath t else t.
  (** src/cache/local_cache.c:934-949: the list. *)
  Fixpoint build_dnc (tal : list Z) (ht : list cnode) : res (list (list Z)) :=
    match ht with
    | [] => Ok []
    | n :: rest =>
        bind (if c_notif (cn_url n) then
                match cage_of tal (cn_url n) with UB => UB | Err _ => Ok [cn_key n] | Ok cage => Ok [cn_key n; cage] end
              else Ok [cn_key n]) (fun l =>
        bind (build_dnc tal rest) (fun l' => Ok (l ++ l')))
    end.
  (** src/cache/local_cache.c:915-960 [delete_unknown_files].  [visits]: the paths
      nftw() reports, in its order. *)
  Definition delete_unknown_files (tal : list Z) (ht : list cnode) (visits : list (list Z)) (t : tree) : res tree :=
    match pb_init_cache J repository (Some tal) (Some (cstr "tal.json")) with
    | UB => UB
    | Err _ => Ok t
    | Ok pb =>
        bind (pb_string pb) (fun meta =>
        bind (build_dnc tal ht) (fun l =>
        bind (pb_pop pb true) (fun _ =>
        Ok (fold_left (delete_if_unknown (meta :: l)) visits t))))
    end.
  (** src/cache/local_cache.c:965-978 [cache_cleanup]. *)
  Definition cache_cleanup (c : cache) (last_week : Z) (visits : list (list Z)) (t : tree) : res (cache * tree) :=
    bind (cleanup_nodes (ca_tal c) last_week (ca_ht c) (ca_ht c) t) (fun '(ht, t) =>
    bind (delete_unknown_files (ca_tal c) ht visits t) (fun t =>
    Ok ({| ca_tal := ca_tal c; ca_ht := ht; ca_startup := ca_startup c |}, t))).

  (** ** The index file *)

  (** src/json_util.c:110-132 [str2tt], 240-254 [tt2str]: the C library's
      calendar. *)
  Variable tt2str : Z -> option (list Z).
  Variable str2tt : list Z -> option Z.

  (** src/json_util.c:34-50 [json_get_bool]; the third value of "missing" is
      false. *)
  Definition json_get_bool (j : json) (k : list Z) : res bool :=
    match json_object_get j k with
    | None => Ok false
    | Some (JBool b) => Ok b
    | Some _ => Err EINVAL
    end.
  (** src/json_util.c:70-88 [json_get_int]. *)
  Definition json_get_int (j : json) (k : list Z) : res Z :=
    match json_object_get j k with
    | None => Ok 0
    | Some (JInt i) => if (i <? -2147483648) || (2147483647 <? i) then Err EINVAL else Ok i
    | Some _ => Err EINVAL
    end.
  (** src/json_util.c:134-145 [json_get_ts]. *)
  Definition json_get_ts (j : json) (k : list Z) : res (option Z) :=
    bind (json_get_str j k) (fun r =>
    match r with
    | None => Ok None
    | Some s => match str2tt s with Some t => Ok (Some t) | None => Err EINVAL end
    end).
  (** src/cache/local_cache.c:241-301 [json2node]; [Ok None]: discarded. *)
  Definition json2node (tal : list Z) (j : json) : res (option cnode) :=
    match json_get_str j (cstr "url") with
    | UB => UB
    | Err _ | Ok None => Ok None
    | Ok (Some url) =>
        let go t :=
          match json_get_bool j (cstr "is-rrdp-notification") with
          | UB => UB
          | Err _ => Ok None
          | Ok is_notif =>
              match uri_create J repository (Some tal) t None url with
              | UB => UB
              | Err _ => Ok None
              | Ok u =>
                  match json_get_ts j (cstr "attempt-timestamp"), json_get_int j (cstr "attempt-result"),
                        json_get_ts j (cstr "success-timestamp") with
                  | Ok (Some ts), Ok r, Ok s =>
                      Ok (Some {| cn_url := {| c_uri := u; c_notif := is_notif |}; cn_ts := ts; cn_result := r;
                                  cn_happened := match s with Some _ => true | None => false end;
                                  cn_sts := match s with Some t => t | None => 0 end |})
                  | _, _, _ => Ok None
                  end
              end
          end in
        if str_starts_with url HTTPS_PREFIX then go UT_HTTPS
        else if str_starts_with url RSYNC_PREFIX then go UT_RSYNC
        else Ok None
    end.
  (** src/cache/local_cache.c:320-363 [load_tal_json]: the nodes of the index
      file ([None]: missing or not JSON). *)
  Fixpoint load_nodes (tal : list Z) (l : list json) (ht : list cnode) : res (list cnode) :=
    match l with
    | [] => Ok ht
    | j :: rest => bind (json2node tal j) (fun o =>
                   load_nodes tal rest (match o with Some n => add_node ht n | None => ht end))
    end.
  Definition load_tal_json (tal : list Z) (file : option json) : res (list cnode) :=
    match file with
    | Some (JArr l) => load_nodes tal l []
    | _ => Ok []
    end.
  (** src/cache/local_cache.c:378-405 [node2json]. *)
  Definition node2json (n : cnode) : option json :=
    match tt2str (cn_ts n), (if cn_happened n then option_map Some (tt2str (cn_sts n)) else Some None) with
    | Some ts, Some s =>
        Some (JObj ([(cstr "url", JStr (c_global (cn_url n)))]
          ++ (if c_notif (cn_url n) then [(cstr "is-rrdp-notification", JBool true)] else [])
          ++ [(cstr "attempt-timestamp", JStr ts); (cstr "attempt-result", JInt (cn_result n))]
          ++ match s with Some s => [(cstr "success-timestamp", JStr s)] | None => [] end))
    | _, _ => None
    end.
  (** src/cache/local_cache.c:407-427 [build_tal_json]. *)
  Fixpoint build_tal_json (ht : list cnode) : list json :=
    match ht with
    | [] => []
    | n :: rest => match node2json n with Some j => j :: build_tal_json rest | None => build_tal_json rest end
    end.
End LocalCache.
