(** Model of src/slurm/slurm_parser.c, src/slurm/db_slurm.c and
    src/slurm/slurm_loader.c (SLURM, RFC 8416), and of the readers of
    src/json_util.c they use.

    Not modelled: reference counts and frees, logging, the loaded_date field.
    Libraries: the JSON parser (jansson), inet_pton(), the base64url decoder
    (modelled separately in Base64.v) and OpenSSL's check of a router public
    key are arguments ([Section] variables). *)
From Coq Require Import String.
From Verif Require Import Base Types HashSet DbTable CString CLib Address PduWireSpec.
Notation length := List.length.

(** jansson's values.  Objects have no repeated member (JSON_REJECT_DUPLICATES,
    src/slurm/slurm_parser.c:43). *)
Inductive json : Type :=
| JObj (members : list (list Z * json))
| JArr (elements : list json)
| JStr (s : list Z)
| JInt (n : Z)
| JBool (b : bool)
| JOther.

Fixpoint assoc (k : list Z) (l : list (list Z * json)) : option json :=
  match l with
  | (k', v) :: t => if list_eqb Z.eqb k k' then Some v else assoc k t
  | [] => None
  end.
(** jansson's json_object_get(): NULL on a non-object. *)
Definition json_object_get (j : json) (k : list Z) : option json :=
  match j with JObj m => assoc k m | _ => None end.
Definition json_object_size (j : json) : nat :=
  match j with JObj m => length m | _ => 0 end.

(** src/json_util.c:16-32 [json_get_str].  [Ok None] is ENOENT. *)
Definition json_get_str (j : json) (k : list Z) : res (option (list Z)) :=
  match json_object_get j k with
  | None => Ok None
  | Some (JStr s) => Ok (Some s)
  | Some _ => Err EINVAL
  end.
(** src/json_util.c:53-70, 91-109 [json_get_int_t], [json_get_u32]. *)
Definition json_get_u32 (j : json) (k : list Z) : res (option Z) :=
  match json_object_get j k with
  | None => Ok None
  | Some (JInt n) => if (n <? 0) || (UINT_MAX <? n) then Err EINVAL else Ok (Some n)
  | Some _ => Err EINVAL
  end.
(** src/json_util.c:147-163 [json_get_array]. *)
Definition json_get_array (j : json) (k : list Z) : res (option (list json)) :=
  match json_object_get j k with
  | None => Ok None
  | Some (JArr l) => Ok (Some l)
  | Some _ => Err EINVAL
  end.
(** src/json_util.c:165-181 [json_get_object]. *)
Definition json_get_object (j : json) (k : list Z) : res (option json) :=
  match json_object_get j k with
  | None => Ok None
  | Some (JObj m) => Ok (Some (JObj m))
  | Some _ => Err EINVAL
  end.
(** src/json_util.c:189-193 [json_valid_members_count]. *)
Definition json_valid_members_count (j : json) (n : nat) : bool := Nat.eqb (json_object_size j) n.

(** src/slurm/db_slurm.h:10-20: flags. *)
Definition FLAG_ASN : Z := 1.
Definition FLAG_COMMENT : Z := 2.
Definition FLAG_PREFIX : Z := 4.      (* and SLURM_BGPS_FLAG_SKI *)
Definition FLAG_MAX_LENGTH : Z := 8.  (* and SLURM_BGPS_FLAG_ROUTER_KEY *)

(** src/slurm/db_slurm.h:22-25 [struct slurm_prefix].  An absent prefix has
    addr_fam 0 in C; here AF_INET, which no function looks at without first
    testing FLAG_PREFIX. *)
Record slurm_prefix := { sp_flag : Z; sp_vrp : vrp }.
(** src/slurm/db_slurm.h:27-32 [struct slurm_bgpsec]; [None] is NULL. *)
Record slurm_bgpsec := { sb_flag : Z; sb_asn : Z; sb_ski : option (list Z); sb_spk : option (list Z) }.

(** src/slurm/db_slurm.c:26-31 [struct slurm_lists] (wrappers only add a
    reference count). *)
Record slurm_lists := {
  filter_pfx : list slurm_prefix;
  assertion_pfx : list slurm_prefix;
  filter_bgps : list slurm_bgpsec;
  assertion_bgps : list slurm_bgpsec;
}.
(** src/slurm/db_slurm.c:60-73 [slurm_lists_create]. *)
Definition slurm_lists_create : slurm_lists :=
  {| filter_pfx := []; assertion_pfx := []; filter_bgps := []; assertion_bgps := [] |}.

(** src/slurm/db_slurm.c:33-38 [struct db_slurm], without cache (threaded
    separately by the parser) and date; checksums are byte strings. *)
Record db_slurm := { lists : slurm_lists; csums : list (list Z) }.

Definition flag_on (fl bit : Z) : bool := 0 <? Z.land fl bit.
(** x & ~SLURM_COM_FLAG_COMMENT. *)
Definition no_comment (fl : Z) : Z := Z.land fl (Z.lnot FLAG_COMMENT).

(** src/slurm/db_slurm.c:131-177 [prefix_filtered_by]. *)
Definition prefix_filtered_by (filter prefix : slurm_prefix) : bool :=
  let fv := sp_vrp filter in let pv := sp_vrp prefix in
  if negb (no_comment (sp_flag filter) =? no_comment (sp_flag prefix)) then
    if no_comment (sp_flag filter) =? Z.lor FLAG_ASN FLAG_PREFIX
    then (v_asn fv =? v_asn pv) && vrp_prefix_cov fv pv
    else if flag_on (sp_flag filter) FLAG_ASN && flag_on (sp_flag prefix) FLAG_ASN
    then v_asn fv =? v_asn pv
    else if flag_on (sp_flag filter) FLAG_PREFIX && flag_on (sp_flag prefix) FLAG_PREFIX
    then vrp_prefix_cov fv pv
    else false
  else
    let equal := true in
    let equal := if equal && flag_on (sp_flag filter) FLAG_ASN then v_asn fv =? v_asn pv else equal in
    let equal := if equal && flag_on (sp_flag filter) FLAG_PREFIX then vrp_prefix_cov fv pv else equal in
    equal.

(** src/slurm/db_slurm.c:179-189 [prefix_filtered]. *)
Definition prefix_filtered (l : slurm_lists) (p : slurm_prefix) : bool :=
  existsb (fun f => prefix_filtered_by f p) (filter_pfx l).

(** memcmp(a, b, RK_SKI_LEN) == 0: undefined on NULL or short buffers. *)
Definition memcmp20 (a b : option (list Z)) : res bool :=
  match a, b with
  | Some x, Some y =>
      if (Nat.leb 20 (length x) && Nat.leb 20 (length y))%bool
      then Ok (list_eqb Z.eqb (firstn 20 x) (firstn 20 y)) else UB
  | _, _ => UB
  end.

(** src/slurm/db_slurm.c:191-232 [bgpsec_filtered_by]. *)
Definition bgpsec_filtered_by (filter b : slurm_bgpsec) : res bool :=
  if negb (no_comment (sb_flag filter) =? no_comment (sb_flag b)) then
    if no_comment (sb_flag filter) =? Z.lor FLAG_ASN FLAG_PREFIX
    then if sb_asn b =? sb_asn filter then memcmp20 (sb_ski b) (sb_ski filter) else Ok false
    else if flag_on (sb_flag b) FLAG_ASN && flag_on (sb_flag filter) FLAG_ASN
    then Ok (sb_asn b =? sb_asn filter)
    else if flag_on (sb_flag b) FLAG_PREFIX && flag_on (sb_flag filter) FLAG_PREFIX
    then memcmp20 (sb_ski b) (sb_ski filter)
    else Ok false
  else
    let equal := if flag_on (sb_flag filter) FLAG_ASN then sb_asn filter =? sb_asn b else true in
    if equal && flag_on (sb_flag filter) FLAG_PREFIX
    then memcmp20 (sb_ski filter) (sb_ski b) else Ok equal.

(** src/slurm/db_slurm.c:234-244 [bgpsec_filtered]. *)
Fixpoint bgpsec_filtered (fs : list slurm_bgpsec) (b : slurm_bgpsec) : res bool :=
  match fs with
  | [] => Ok false
  | f :: fs' => bind (bgpsec_filtered_by f b) (fun x => if x then Ok true else bgpsec_filtered fs' b)
  end.

(** src/slurm/db_slurm.c:246-257 [prefix_contained]. *)
Definition prefix_contained (a b : slurm_prefix) : bool :=
  flag_on (sp_flag a) FLAG_PREFIX && flag_on (sp_flag b) FLAG_PREFIX && vrp_prefix_cov (sp_vrp a) (sp_vrp b).
(** src/slurm/db_slurm.c:267-283 [prefix_exists]. *)
Definition prefix_exists (l : slurm_lists) (e : slurm_prefix) : bool :=
  existsb (fun c => prefix_contained c e || prefix_contained e c) (filter_pfx l)
  || existsb (fun c => prefix_contained c e || prefix_contained e c) (assertion_pfx l).
(** src/slurm/db_slurm.c:315-321 [bgpsec_contained]. *)
Definition bgpsec_contained (a b : slurm_bgpsec) : bool :=
  flag_on (sb_flag a) FLAG_ASN && flag_on (sb_flag b) FLAG_ASN && (sb_asn a =? sb_asn b).
(** src/slurm/db_slurm.c:330-346 [bgpsec_exists]. *)
Definition bgpsec_exists (l : slurm_lists) (e : slurm_bgpsec) : bool :=
  existsb (fun c => bgpsec_contained c e || bgpsec_contained e c) (filter_bgps l)
  || existsb (fun c => bgpsec_contained c e || bgpsec_contained e c) (assertion_bgps l).

(** src/slurm/db_slurm.c:285-313 [db_slurm_add_prefix_filter/_assertion]:
    conflicts are looked for in the main lists [l], additions go to the cache
    [c]. *)
Definition db_slurm_add_prefix (is_assertion : bool) (l c : slurm_lists) (e : slurm_prefix) : res slurm_lists :=
  if prefix_exists l e then Err EEXIST
  else Ok (if is_assertion
           then {| filter_pfx := filter_pfx c; assertion_pfx := assertion_pfx c ++ [e];
                   filter_bgps := filter_bgps c; assertion_bgps := assertion_bgps c |}
           else {| filter_pfx := filter_pfx c ++ [e]; assertion_pfx := assertion_pfx c;
                   filter_bgps := filter_bgps c; assertion_bgps := assertion_bgps c |}).
(** src/slurm/db_slurm.c:348-376 [db_slurm_add_bgpsec_filter/_assertion]. *)
Definition db_slurm_add_bgpsec (is_assertion : bool) (l c : slurm_lists) (e : slurm_bgpsec) : res slurm_lists :=
  if bgpsec_exists l e then Err EEXIST
  else Ok (if is_assertion
           then {| filter_pfx := filter_pfx c; assertion_pfx := assertion_pfx c;
                   filter_bgps := filter_bgps c; assertion_bgps := assertion_bgps c ++ [e] |}
           else {| filter_pfx := filter_pfx c; assertion_pfx := assertion_pfx c;
                   filter_bgps := filter_bgps c ++ [e]; assertion_bgps := assertion_bgps c |}).

(** src/slurm/db_slurm.c:378-388 [db_slurm_vrp_is_filtered]. *)
Definition db_slurm_vrp_is_filtered (l : slurm_lists) (v : vrp) : bool :=
  prefix_filtered l {| sp_flag := Z.lor (Z.lor FLAG_ASN FLAG_PREFIX) FLAG_MAX_LENGTH; sp_vrp := v |}.
(** src/slurm/db_slurm.c:390-404 [db_slurm_bgpsec_is_filtered]. *)
Definition db_slurm_bgpsec_is_filtered (l : slurm_lists) (k : router_key) : res bool :=
  bgpsec_filtered (filter_bgps l)
    {| sb_flag := Z.lor FLAG_ASN FLAG_PREFIX; sb_asn := rk_asn k; sb_ski := Some (rk_ski k); sb_spk := None |}.

(** src/slurm/db_slurm.c:576-586 [db_slurm_flush_cache], 528-568 persist_*. *)
Definition db_slurm_flush_cache (l c : slurm_lists) : slurm_lists :=
  {| filter_pfx := filter_pfx l ++ filter_pfx c; assertion_pfx := assertion_pfx l ++ assertion_pfx c;
     filter_bgps := filter_bgps l ++ filter_bgps c; assertion_bgps := assertion_bgps l ++ assertion_bgps c |}.
(** src/slurm/db_slurm.c:588-595 [db_slurm_has_data]. *)
Definition db_slurm_has_data (l : slurm_lists) : bool :=
  negb (Nat.eqb (length (filter_pfx l)) 0) || negb (Nat.eqb (length (filter_bgps l)) 0)
  || negb (Nat.eqb (length (assertion_pfx l)) 0) || negb (Nat.eqb (length (assertion_bgps l)) 0).

(** src/types/address.c:432-455 [prefix_length_parse]; [None] is NULL. *)
Definition prefix_length_parse (text : option (list Z)) (max_value : Z) : res Z :=
  match text with
  | None => Err EINVAL
  | Some t => let '(len, erange, _) := strtoul t in
              if erange then Err EINVAL
              else if max_value <? len then Err EINVAL else Ok len
  end.

Section Parser.
  (** inet_pton(AF_INET / AF_INET6): the address, most significant byte first. *)
  Variable pton4 : list Z -> option Z.
  Variable pton6 : list Z -> option (list Z).
  (** base64url_decode() and validate_router_spki() (OpenSSL). *)
  Variable b64url : list Z -> option (list Z).
  Variable valid_spki : list Z -> bool.

  (** src/slurm/slurm_parser.c:60-76 [set_asn]. *)
  Definition set_asn (o : json) (is_assertion : bool) : res (option Z) :=
    bind (json_get_u32 o (cstr "asn")) (fun r =>
    match r with
    | None => if is_assertion then Err EINVAL else Ok None
    | Some n => Ok (Some n)
    end).

  (** src/slurm/slurm_parser.c:79-95 [set_comment]: was there one? *)
  Definition set_comment (o : json) : res bool :=
    bind (json_get_str o (cstr "comment")) (fun r =>
    Ok (match r with None => false | Some _ => true end)).

  (** src/slurm/slurm_parser.c:97-159 [set_prefix]: family, address, length. *)
  Definition set_prefix (o : json) (is_assertion : bool) : res (option (family * Z * Z)) :=
    bind (json_get_str o (cstr "prefix")) (fun r =>
    match r with
    | None => if is_assertion then Err EINVAL else Ok None
    | Some str =>
        let '(token, rest) := strtok 47 str in
        match token with
        | None => UB (* strchr(NULL, ':') *)
        | Some tok =>
            let isv4 := negb (has_char 58 tok) in
            if isv4 then
              match pton4 tok with
              | None => Err EINVAL
              | Some a => bind (prefix_length_parse (fst (strtok 47 rest)) 32) (fun len =>
                          bind (ipv4_prefix_validate a len) (fun _ => Ok (Some (AF_INET, a, len))))
              end
            else
              match pton6 tok with
              | None => Err EINVAL
              | Some a => bind (prefix_length_parse (fst (strtok 47 rest)) 128) (fun len =>
                          bind (ipv6_prefix_validate a len) (fun _ => Ok (Some (AF_INET6, be a, len))))
              end
        end
    end).

  (** src/slurm/slurm_parser.c:161-193 [set_max_prefix_length]. *)
  Definition set_max_prefix_length (o : json) (is_assertion : bool) (fam : family) : res (option Z) :=
    bind (json_get_u32 o (cstr "maxPrefixLength")) (fun r =>
    if negb is_assertion then match r with Some _ => Err EINVAL | None => Ok None end
    else match r with
         | None => Ok None
         | Some u => if (match fam with AF_INET => 32 | AF_INET6 => 128 end) <? u then Err EINVAL else Ok (Some u)
         end).

  Definition opt_flag {A} (o : option A) (bit : Z) : Z := match o with Some _ => bit | None => 0 end.
  Definition opt_count {A} (o : option A) : nat := match o with Some _ => 1 | None => 0 end.

  (** src/slurm/slurm_parser.c:349-420 [load_single_prefix]: the new cache. *)
  Definition load_single_prefix (l c : slurm_lists) (is_assertion : bool) (o : json) : res slurm_lists :=
    match o with
    | JObj _ =>
        bind (set_asn o is_assertion) (fun asn =>
        bind (set_prefix o is_assertion) (fun pfx =>
        let '(fam, addr, len) := match pfx with Some p => p | None => (AF_INET, 0, 0) end in
        bind (set_max_prefix_length o is_assertion fam) (fun max =>
        bind (set_comment o) (fun comment =>
        let fl := Z.lor (Z.lor (opt_flag asn FLAG_ASN) (opt_flag pfx FLAG_PREFIX))
                    (Z.lor (opt_flag max FLAG_MAX_LENGTH) (if comment then FLAG_COMMENT else 0)) in
        let members := (opt_count asn + opt_count pfx + opt_count max + (if comment then 1 else 0))%nat in
        let result := {| sp_flag := fl;
                         sp_vrp := {| v_asn := match asn with Some n => n | None => 0 end; v_addr := addr;
                                      v_len := len; v_max := match max with Some n => n | None => 0 end;
                                      v_fam := fam |} |} in
        if fl =? FLAG_COMMENT then Err EINVAL
        else if negb is_assertion then
          if Z.land fl (Z.lor FLAG_ASN FLAG_PREFIX) =? 0 then Err EINVAL
          else if negb (json_valid_members_count o members) then Err EINVAL
          else db_slurm_add_prefix false l c result
        else
          if flag_on fl FLAG_MAX_LENGTH && (v_max (sp_vrp result) <? len) then Err EINVAL
          else if negb (json_valid_members_count o members) then Err EINVAL
          else db_slurm_add_prefix true l c result))))
    | _ => Err EINVAL
    end.

  (** src/slurm/slurm_parser.c:195-221 [validate_base64url_encoded]. *)
  Definition validate_base64url_encoded (s : list Z) : res unit :=
    if has_char 61 s then Err EINVAL else Ok tt.

  (** src/slurm/slurm_parser.c:223-255 [set_ski]. *)
  Definition set_ski (o : json) (is_assertion : bool) : res (option (list Z)) :=
    bind (json_get_str o (cstr "SKI")) (fun r =>
    match r with
    | None => if is_assertion then Err EINVAL else Ok None
    | Some s =>
        bind (validate_base64url_encoded s) (fun _ =>
        match b64url s with
        | None => Err EINVAL
        | Some ski => if Nat.eqb (length ski) 20 then Ok (Some ski) else Err EINVAL
        end)
    end).

  (** src/slurm/slurm_parser.c:293-336 [set_router_pub_key]. *)
  Definition set_router_pub_key (o : json) (is_assertion : bool) : res (option (list Z)) :=
    bind (json_get_str o (cstr "routerPublicKey")) (fun r =>
    if negb is_assertion then match r with Some _ => Err EINVAL | None => Ok None end
    else match r with
         | None => Err EINVAL
         | Some s =>
             bind (validate_base64url_encoded s) (fun _ =>
             match b64url s with
             | None => Err EINVAL
             | Some spk => if valid_spki spk then Ok (Some spk) else Err EINVAL
             end)
         end).

  (** src/slurm/slurm_parser.c:459-538 [load_single_bgpsec]. *)
  Definition load_single_bgpsec (l c : slurm_lists) (is_assertion : bool) (o : json) : res slurm_lists :=
    match o with
    | JObj _ =>
        bind (set_asn o is_assertion) (fun asn =>
        bind (set_ski o is_assertion) (fun ski =>
        bind (set_router_pub_key o is_assertion) (fun spk =>
        bind (set_comment o) (fun comment =>
        let fl := Z.lor (Z.lor (opt_flag asn FLAG_ASN) (opt_flag ski FLAG_PREFIX))
                    (Z.lor (opt_flag spk FLAG_MAX_LENGTH) (if comment then FLAG_COMMENT else 0)) in
        let members := (opt_count asn + opt_count ski + opt_count spk + (if comment then 1 else 0))%nat in
        let result := {| sb_flag := fl; sb_asn := match asn with Some n => n | None => 0 end;
                         sb_ski := ski; sb_spk := spk |} in
        if fl =? FLAG_COMMENT then Err EINVAL
        else if negb is_assertion then
          if Z.land fl (Z.lor FLAG_ASN FLAG_PREFIX) =? 0 then Err EINVAL
          else if negb (json_valid_members_count o members) then Err EINVAL
          else db_slurm_add_bgpsec false l c result
        else
          if negb (json_valid_members_count o members) then Err EINVAL
          else db_slurm_add_bgpsec true l c result))))
    | _ => Err EINVAL
    end.

  (** src/slurm/slurm_parser.c:422-448, 539-565 [load_prefix_array],
      [load_bgpsec_array]: stop at the first error. *)
  Fixpoint load_array (load1 : slurm_lists -> json -> res slurm_lists) (c : slurm_lists) (a : list json)
    : res slurm_lists :=
    match a with
    | [] => Ok c
    | x :: a' => bind (load1 c x) (fun c' => load_array load1 c' a')
    end.

  (** src/slurm/slurm_parser.c:568-585 [load_version]. *)
  Definition load_version (root : json) : res unit :=
    bind (json_get_u32 root (cstr "slurmVersion")) (fun r =>
    match r with
    | None => Err EINVAL
    | Some v => if negb (v =? 1) then Err EINVAL else Ok tt
    end).

  (** src/slurm/slurm_parser.c:587-630, 632-674 [load_filters],
      [load_assertions]. *)
  Definition load_section (is_assertion : bool) (obj_name pfx_name bgp_name : list Z) (root : json)
    (l c : slurm_lists) : res slurm_lists :=
    bind (json_get_object root obj_name) (fun o =>
    match o with
    | None => Err EINVAL
    | Some filters =>
        bind (json_get_array filters pfx_name) (fun p =>
        match p with
        | None => Err EINVAL
        | Some prefix =>
            bind (json_get_array filters bgp_name) (fun b =>
            match b with
            | None => Err EINVAL
            | Some bgpsec =>
                if negb (json_valid_members_count filters 2) then Err EINVAL
                else bind (load_array (fun c x => load_single_prefix l c is_assertion x) c prefix) (fun c1 =>
                     load_array (fun c x => load_single_bgpsec l c is_assertion x) c1 bgpsec)
            end)
        end)
    end).
  Definition load_filters : json -> slurm_lists -> slurm_lists -> res slurm_lists :=
    load_section false (cstr "validationOutputFilters") (cstr "prefixFilters") (cstr "bgpsecFilters").
  Definition load_assertions : json -> slurm_lists -> slurm_lists -> res slurm_lists :=
    load_section true (cstr "locallyAddedAssertions") (cstr "prefixAssertions") (cstr "bgpsecAssertions").

  (** src/slurm/slurm_parser.c:674-708 [handle_json]: the new main lists. *)
  Definition handle_json (root : json) (l : slurm_lists) : res slurm_lists :=
    match root with
    | JObj _ =>
        bind (load_version root) (fun _ =>
        bind (load_filters root l slurm_lists_create) (fun c1 =>
        bind (load_assertions root l c1) (fun c2 =>
        if negb (json_valid_members_count root 3) then Err EINVAL
        else Ok (db_slurm_flush_cache l c2))))
    | _ => Err EINVAL
    end.

  (** src/slurm/slurm_parser.c:38-58 [slurm_parse]; [None]: jansson could not
      read the file. *)
  Definition slurm_parse (file : option json) (l : slurm_lists) : res slurm_lists :=
    match file with None => Err EINVAL | Some j => handle_json j l end.

  (** src/common.c:146-216 [foreach_file] with [slurm_parse]: the files in the
      order readdir() gives them. *)
  Fixpoint parse_files (files : list (option json)) (l : slurm_lists) : res slurm_lists :=
    match files with
    | [] => Ok l
    | f :: t => bind (slurm_parse f l) (fun l' => parse_files t l')
    end.

  (** src/slurm/slurm_loader.c:24-51 [load_slurm_files]; [Ok None]: no rules.
      The failure of get_current_time() is not modelled (it is one more
      error). *)
  Definition load_slurm_files (cs : list (list Z)) (files : list (option json)) : res (option db_slurm) :=
    bind (parse_files files slurm_lists_create) (fun l =>
    Ok (if db_slurm_has_data l then Some {| lists := l; csums := cs |} else None)).

  (** src/slurm/slurm_loader.c:175-206 [are_csum_lists_equals]. *)
  Definition are_csum_lists_equals (new old : list (list Z)) : bool :=
    if negb (Nat.eqb (length new) (length old)) then false
    else forallb (fun n => existsb (fun o => list_eqb Z.eqb n o) old) new.

  (** src/slurm/slurm_loader.c:209-266 [update_slurm].  [new_csums]: outcome
      of hashing the files; [files]: what jansson reads from them. *)
  Definition update_slurm (slurm : option db_slurm) (new_csums : res (list (list Z)))
    (files : list (option json)) : res (option db_slurm) :=
    bind new_csums (fun cs =>
    if Nat.eqb (length cs) 0 then Ok None
    else
      match slurm with
      | Some s => if are_csum_lists_equals cs (csums s) then Ok slurm
                  else match load_slurm_files cs files with
                       | Ok n => Ok n
                       | Err _ => Ok slurm
                       | UB => UB
                       end
      | None => match load_slurm_files cs files with
                | Ok n => Ok n
                | Err _ => Ok slurm
                | UB => UB
                end
      end).

  (** src/slurm/slurm_loader.c:53-62 [slurm_pfx_filters_apply] over
      db_table_foreach_roa (src/rtr/db/db_table.c:123-136; HASH_ITER allows
      deleting the current node). *)
  Definition apply_pfx_filters (l : slurm_lists) (t : db_table) : db_table :=
    fold_left (fun t v => if db_slurm_vrp_is_filtered l v then db_table_remove_roa t v else t) (t_roas t) t.

  (** src/slurm/slurm_loader.c:100-109 [slurm_bgpsec_filters_apply] over
      db_table_foreach_router_key. *)
  Fixpoint bgpsec_filters_loop (l : slurm_lists) (ks : list router_key) (t : db_table) : res db_table :=
    match ks with
    | [] => Ok t
    | k :: ks' => bind (db_slurm_bgpsec_is_filtered l k) (fun b =>
                  bgpsec_filters_loop l ks' (if b then db_table_remove_router_key t k else t))
    end.

  (** src/slurm/slurm_loader.c:64-91 [slurm_pfx_assertions_add]. *)
  Definition pfx_assertion_add (t : db_table) (p : slurm_prefix) : db_table :=
    let v := sp_vrp p in
    let max := if Z.land (sp_flag p) FLAG_MAX_LENGTH =? 0 then v_len v else v_max v in
    match v_fam v with
    | AF_INET => rtrhandler_handle_roa_v4 t (v_asn v) (v_addr v) (v_len v) max
    | AF_INET6 => rtrhandler_handle_roa_v6 t (v_asn v) (v_addr v) (v_len v) max
    end.

  (** src/slurm/slurm_loader.c:111-118 [slurm_bgpsec_assertions_add];
      router_key_init (src/types/router_key.c:6-13) copies 20 and 91 bytes. *)
  Definition bgpsec_assertion_add (t : db_table) (b : slurm_bgpsec) : res db_table :=
    match sb_ski b, sb_spk b with
    | Some ski, Some spk =>
        if (Nat.leb 20 (length ski) && Nat.leb 91 (length spk))%bool
        then Ok (rtrhandler_handle_router_key t (firstn 20 ski) (sb_asn b) (firstn 91 spk))
        else UB
    | _, _ => UB
    end.
  Fixpoint bgpsec_assertions_loop (bs : list slurm_bgpsec) (t : db_table) : res db_table :=
    match bs with
    | [] => Ok t
    | b :: bs' => bind (bgpsec_assertion_add t b) (fun t' => bgpsec_assertions_loop bs' t')
    end.

  (** src/slurm/slurm_loader.c:268-304 [slurm_apply] with SLURM configured:
      the new table and the new SLURM. *)
  Definition apply_lists (t : db_table) (l : slurm_lists) : res db_table :=
    let t1 := apply_pfx_filters l t in
    bind (bgpsec_filters_loop l (t_rks t1) t1) (fun t2 =>
    let t3 := fold_left pfx_assertion_add (assertion_pfx l) t2 in
    bgpsec_assertions_loop (assertion_bgps l) t3).
  Definition slurm_apply (t : db_table) (slurm : option db_slurm) (new_csums : res (list (list Z)))
    (files : list (option json)) : res (db_table * option db_slurm) :=
    bind (update_slurm slurm new_csums files) (fun s =>
    match s with
    | None => Ok (t, None)
    | Some db => bind (apply_lists t (lists db)) (fun t' => Ok (t', s))
    end).
End Parser.
