(** Specification vocabulary for SLURM (C24-C26, C54, C55): what the rules of
    a set of JSON files mean (RFC 8416 sections 3 and 4), independently of the
    parser's flags and lists.  The library oracles are as in Slurm.v. *)
From Coq Require Import String Permutation.
From Verif Require Import Base Types CString CLib PduWireSpec Address AddressSpec Slurm.
Notation length := List.length.

(** Member [k] of a JSON object. *)
Definition member (j : json) (k : string) (v : json) : Prop :=
  exists m, j = JObj m /\ In (cstr k, v) m.
Definition absent (j : json) (k : string) : Prop := forall v, ~ member j k v.

(** No object has a repeated member (JSON_REJECT_DUPLICATES). *)
Inductive json_ok : json -> Prop :=
| jo_obj m : NoDup (map fst m) -> (forall k v, In (k, v) m -> json_ok v) -> json_ok (JObj m)
| jo_arr l : (forall v, In v l -> json_ok v) -> json_ok (JArr l)
| jo_str s : json_ok (JStr s)
| jo_int n : json_ok (JInt n)
| jo_bool b : json_ok (JBool b)
| jo_other : json_ok JOther.

(** [x] is an element of the array root.sec.arr of one of the files. *)
Definition element (files : list (option json)) (sec arr : string) (x : json) : Prop :=
  exists root s l, In (Some root) files /\ member root sec s /\ member s arr (JArr l) /\ In x l.
Definition prefix_filter files := element files "validationOutputFilters" "prefixFilters".
Definition bgpsec_filter files := element files "validationOutputFilters" "bgpsecFilters".
Definition prefix_assertion files := element files "locallyAddedAssertions" "prefixAssertions".
Definition bgpsec_assertion files := element files "locallyAddedAssertions" "bgpsecAssertions".

Section Oracles.
  Variable pton4 : list Z -> option Z.
  Variable pton6 : list Z -> option (list Z).
  Variable b64url : list Z -> option (list Z).

  (** inet_pton() yields 4 / 16 bytes. *)
  Definition pton_ok : Prop :=
    (forall s a, pton4 s = Some a -> 0 <= a < 2 ^ 32) /\
    (forall s a, pton6 s = Some a -> List.length a = 16%nat /\ Forall is_byte a).

  (** What the program reads in a prefix text: the first two '/'-separated
      tokens, the second one through strtoul(). *)
  Definition reads_prefix (s : list Z) (fam : family) (addr len : Z) : Prop :=
    exists a r l r' e,
      strtok 47 s = (Some a, r) /\ strtok 47 r = (Some l, r') /\ strtoul l = (len, false, e) /\
      0 <= len <= width fam /\ addr mod 2 ^ (width fam - len) = 0 /\
      match fam with
      | AF_INET => ~ In 58 a /\ pton4 a = Some addr
      | AF_INET6 => In 58 a /\ exists b, pton6 a = Some b /\ addr = be b
      end.

  (** RFC 8416 3.2, RFC 4632/4291 notation: address "/" decimal length. *)
  Definition decimal (s : list Z) (n : Z) : Prop :=
    s <> [] /\ Forall (fun c => 48 <= c <= 57) s /\ n = fold_left (fun a c => 10 * a + (c - 48)) s 0.
  Definition prefix_text (s : list Z) (fam : family) (addr len : Z) : Prop :=
    exists a l, s = a ++ [47] ++ l /\ ~ In 47 a /\ a <> [] /\ decimal l len /\
      0 <= len <= width fam /\ addr mod 2 ^ (width fam - len) = 0 /\
      match fam with
      | AF_INET => ~ In 58 a /\ pton4 a = Some addr
      | AF_INET6 => In 58 a /\ exists b, pton6 a = Some b /\ addr = be b
      end.

  (** RFC 8416 3.3.1: each attribute the filter has must match. *)
  Definition filter_matches_vrp (j : json) (v : vrp) : Prop :=
    (forall x, member j "asn" x -> x = JInt (v_asn v)) /\
    (forall x, member j "prefix" x -> exists s addr len, x = JStr s /\
       reads_prefix s (v_fam v) addr len /\
       forall ip, in_prefix (width (v_fam v)) (v_addr v) (v_len v) ip ->
                  in_prefix (width (v_fam v)) addr len ip).
  (** RFC 8416 3.3.2. *)
  Definition filter_matches_key (j : json) (k : router_key) : Prop :=
    (forall x, member j "asn" x -> x = JInt (rk_asn k)) /\
    (forall x, member j "SKI" x -> exists s, x = JStr s /\ b64url s = Some (rk_ski k)).

  (** RFC 8416 3.4.1, 3.4.2: the payload an assertion adds. *)
  Definition asserts_vrp (j : json) (v : vrp) : Prop :=
    member j "asn" (JInt (v_asn v)) /\
    (exists s, member j "prefix" (JStr s) /\ reads_prefix s (v_fam v) (v_addr v) (v_len v)) /\
    (member j "maxPrefixLength" (JInt (v_max v)) \/ absent j "maxPrefixLength" /\ v_max v = v_len v) /\
    v_len v <= v_max v <= width (v_fam v).
  Definition asserts_key (j : json) (k : router_key) : Prop :=
    member j "asn" (JInt (rk_asn k)) /\
    (exists s, member j "SKI" (JStr s) /\ b64url s = Some (rk_ski k)) /\
    (exists s, member j "routerPublicKey" (JStr s) /\ b64url s = Some (rk_spk k)).

  (** Keys have the sizes of src/types/router_key.h. *)
  Definition key_sized (k : router_key) : Prop := List.length (rk_ski k) = 20%nat /\ List.length (rk_spk k) = 91%nat.
End Oracles.

(** ** RFC 8416 files (C54). *)
Definition only_members (j : json) (ks : list string) : Prop :=
  forall m k v, j = JObj m -> In (k, v) m -> In k (map cstr ks).
Definition is_object (j : json) : Prop := exists m, j = JObj m.
Definition strings_only (j : json) (k : string) : Prop := forall x, member j k x -> exists s, x = JStr s.
Definition u32s_only (j : json) (k : string) : Prop := forall x, member j k x -> exists n, x = JInt n /\ is_u32 n.

Section Grammar.
  Variable pton4 : list Z -> option Z.
  Variable pton6 : list Z -> option (list Z).
  Variable b64url : list Z -> option (list Z).
  Variable valid_spki : list Z -> bool.

  (** Sections 3.3.1 and 3.4.1. *)
  Definition prefix_filter_ok (j : json) : Prop :=
    is_object j /\ only_members j ["asn"; "prefix"; "comment"]%string /\
    u32s_only j "asn" /\ strings_only j "comment" /\
    (forall x, member j "prefix" x -> exists s f a l, x = JStr s /\ reads_prefix pton4 pton6 s f a l) /\
    ((exists x, member j "asn" x) \/ exists x, member j "prefix" x).
  Definition prefix_assertion_ok (j : json) : Prop :=
    is_object j /\ only_members j ["asn"; "prefix"; "maxPrefixLength"; "comment"]%string /\
    u32s_only j "asn" /\ strings_only j "comment" /\ (exists x, member j "asn" x) /\
    exists s f a l, member j "prefix" (JStr s) /\ reads_prefix pton4 pton6 s f a l /\
      forall x, member j "maxPrefixLength" x -> exists n, x = JInt n /\ l <= n <= width f.
  (** Sections 3.3.2 and 3.4.2. *)
  Definition ski_ok (x : json) : Prop :=
    exists s ski, x = JStr s /\ ~ In 61 s /\ b64url s = Some ski /\ List.length ski = 20%nat.
  Definition bgpsec_filter_ok (j : json) : Prop :=
    is_object j /\ only_members j ["asn"; "SKI"; "comment"]%string /\
    u32s_only j "asn" /\ strings_only j "comment" /\
    (forall x, member j "SKI" x -> ski_ok x) /\
    ((exists x, member j "asn" x) \/ exists x, member j "SKI" x).
  Definition bgpsec_assertion_ok (j : json) : Prop :=
    is_object j /\ only_members j ["asn"; "SKI"; "routerPublicKey"; "comment"]%string /\
    u32s_only j "asn" /\ strings_only j "comment" /\ (exists x, member j "asn" x) /\
    (exists x, member j "SKI" x /\ ski_ok x) /\
    exists s k, member j "routerPublicKey" (JStr s) /\ ~ In 61 s /\ b64url s = Some k /\ valid_spki k = true.
  (** Section 3.2. *)
  Definition section_ok (root : json) (sec pn bn : string) (pok bok : json -> Prop) : Prop :=
    exists s ps bs, member root sec s /\ is_object s /\ only_members s [pn; bn] /\
      member s pn (JArr ps) /\ member s bn (JArr bs) /\ Forall pok ps /\ Forall bok bs.
  Definition slurm_file_ok (root : json) : Prop :=
    is_object root /\
    only_members root ["slurmVersion"; "validationOutputFilters"; "locallyAddedAssertions"]%string /\
    member root "slurmVersion" (JInt 1) /\
    section_ok root "validationOutputFilters" "prefixFilters" "bgpsecFilters" prefix_filter_ok bgpsec_filter_ok /\
    section_ok root "locallyAddedAssertions" "prefixAssertions" "bgpsecAssertions" prefix_assertion_ok bgpsec_assertion_ok.

  (** Section 4.2: a prefix (an AS number) used by a file. *)
  Definition uses_prefix (root : json) (f : family) (a l : Z) : Prop :=
    exists j s, (prefix_filter [Some root] j \/ prefix_assertion [Some root] j) /\
      member j "prefix" (JStr s) /\ reads_prefix pton4 pton6 s f a l.
  Definition uses_asn (root : json) (n : Z) : Prop :=
    exists j, (bgpsec_filter [Some root] j \/ bgpsec_assertion [Some root] j) /\ member j "asn" (JInt n).
End Grammar.

(** ** Histories of validation cycles (C26): each cycle sees the outcome of
    hashing the SLURM files and their contents; [slurm_at h s]: after history
    [h] (latest first) the SLURM in force is [s]. *)
Section History.
  Variable pton4 : list Z -> option Z.
  Variable pton6 : list Z -> option (list Z).
  Variable b64url : list Z -> option (list Z).
  Variable valid_spki : list Z -> bool.
  Definition slurm_cycle : Type := res (list (list Z)) * list (option json).
  Inductive slurm_at : list slurm_cycle -> option db_slurm -> Prop :=
  | sa_start : slurm_at [] None
  | sa_ok h s cs files s' : slurm_at h s ->
      update_slurm pton4 pton6 b64url valid_spki s cs files = Ok s' -> slurm_at ((cs, files) :: h) s'
  | sa_fail h s cs files e : slurm_at h s ->
      update_slurm pton4 pton6 b64url valid_spki s cs files = Err e -> slurm_at ((cs, files) :: h) s.
End History.

(** Since a cycle [c], nothing replaced the rules [old] that were in force:
    hashing failed, or the files hash to the loaded checksums (as the program
    compares them), or they could not be loaded. *)
Section InForce.
  Variable pton4 : list Z -> option Z.
  Variable pton6 : list Z -> option (list Z).
  Variable b64url : list Z -> option (list Z).
  Variable valid_spki : list Z -> bool.
  (** The files of a cycle, read one after the other. *)
  Definition loads (files : list (option json)) (l : slurm_lists) : Prop :=
    parse_files pton4 pton6 b64url valid_spki files slurm_lists_create = Ok l.
  Definition unloadable (files : list (option json)) : Prop :=
    exists e, parse_files pton4 pton6 b64url valid_spki files slurm_lists_create = Err e.
  Definition no_rules (l : slurm_lists) : Prop := l = slurm_lists_create.
  (** Equal as multisets whenever no two new files have the same content;
      otherwise only: as many, and each new one among the old ones. *)
  Definition same_files (new old : list (list Z)) : Prop :=
    List.length new = List.length old /\ incl new old /\ (NoDup new -> Permutation new old).
  Definition keeps (old : option (list (list Z))) (c : slurm_cycle) : Prop :=
    match fst c with
    | Ok cs => cs <> [] /\
        (match old with Some o => same_files cs o | None => False end \/ unloadable (snd c))
    | _ => True
    end.
  Definition in_force (h : list slurm_cycle) (s : option db_slurm) : Prop :=
    match s with
    | Some db => exists h1 files h0, h = h1 ++ (Ok (csums db), files) :: h0 /\
        csums db <> [] /\ loads files (lists db) /\ ~ no_rules (lists db) /\
        Forall (keeps (Some (csums db))) h1
    | None => (Forall (keeps None) h) \/
        exists h1 cs files h0, h = h1 ++ (Ok cs, files) :: h0 /\
          (cs = [] \/ exists l, loads files l /\ no_rules l) /\ Forall (keeps None) h1
    end.
End InForce.
