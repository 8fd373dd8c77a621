(** C99: what print mode shows of a signed object. *)
From Coq Require Import String.
From Verif Require Import Base CString Slurm Address AddressSpec ResourcesSpec Roa Manifest ManifestSpec NtopSpec BerSpec.
Notation length := List.length.
Open Scope list_scope.
Open Scope Z_scope.

(** ** Texts *)

(** Hexadecimal: two digits, in lower case, per byte. *)
Inductive hex_text : list Z -> list Z -> Prop :=
| ht_nil : hex_text [] []
| ht_cons d e s b bs : hexdigit d = true -> hexdigit e = true -> b = 16 * hexval d + hexval e -> hex_text s bs -> hex_text (d :: e :: s) (b :: bs).

(** UTF-8 (RFC 3629): the Unicode scalar values, and their encodings. *)
Definition scalar (c : Z) : Prop := 0 <= c < 55296 \/ 57343 < c <= 1114111.
Definition utf8_bytes (c : Z) : list Z :=
  if c <? 128 then [c]
  else if c <? 2048 then [192 + c / 64; 128 + c mod 64]
  else if c <? 65536 then [224 + c / 4096; 128 + c / 64 mod 64; 128 + c mod 64]
  else [240 + c / 262144; 128 + c / 4096 mod 64; 128 + c / 64 mod 64; 128 + c mod 64].
Definition utf8 (s : list Z) : Prop := exists cs, Forall scalar cs /\ s = flat_map utf8_bytes cs.

(** Dates: the digits of a GeneralizedTime, and its fields as they are shown: YYYY-MM-DD hh:mm:ssZ. *)
Definition time_text (st s : list Z) : Prop :=
  exists sy smo sd sh smi sse fr rest y mo d h mi se,
    st = sy ++ smo ++ sd ++ sh ++ smi ++ sse ++ fr ++ 90 :: rest /\
    num 4 sy y /\ num 2 smo mo /\ num 2 sd d /\ num 2 sh h /\ num 2 smi mi /\ num 2 sse se /\ fraction fr /\
    1 <= mo <= 12 /\ 1 <= d <= 31 /\ h <= 23 /\ se <= 60 /\
    s = sy ++ [45] ++ smo ++ [45] ++ sd ++ [32] ++ sh ++ [58] ++ smi ++ [58] ++ sse ++ [90].

(** RFC 5280, 4.1.2.5.1: a UTCTime's year YY is 19YY if it's at least 50, and 20YY otherwise. *)
Definition in_century (st : list Z) : list Z :=
  match st with
  | a :: _ => (if 53 <=? a then [49; 57] else [50; 48]) ++ st
  | [] => []
  end.

(** jansson's integers have 64 bits. *)
Definition int64 (n : Z) : Prop := -9223372036854775808 <= n <= 9223372036854775807.
Inductive shows_integer (b : list Z) : json -> Prop :=
| si : int64 (integer_value b) -> shows_integer b (JInt (integer_value b)).
Definition shows_optional (name : string) (b : option (list Z)) (m : list (list Z * json)) : Prop :=
  match b with
  | None => m = []
  | Some b => exists j, shows_integer b j /\ m = [(cstr name, j)]
  end.

(** ** ROAs *)

(** The text of an address of [W] bits. *)
Definition address_text (W : Z) (s : list Z) (addr : Z) : Prop :=
  if W =? 32 then read4 s = Some addr else option_map NtopSpec.value (read6 s) = Some addr.
(** An address of an IPv4 or IPv6 block: it has to have a maxLength. *)
Inductive shows_address (W : Z) (a : roa_addr) : json -> Prop :=
| sa s addr len m mj : denotes W (ra_address a) addr len -> address_text W s addr -> ra_max a = Some m -> shows_integer m mj ->
    shows_address W a (JObj [(cstr "prefix", JStr s); (cstr "length", JInt len); (cstr "maxLength", mj)]).
(** An address of another block: the bytes of the bit string. *)
Inductive shows_unknown_address (a : roa_addr) : json -> Prop :=
| su s m : hex_text s (bs_buf (ra_address a)) -> shows_optional "maxLength" (ra_max a) m ->
    shows_unknown_address a (JObj ((cstr "address", JStr s) :: m)).
Inductive shows_block : list Z * list roa_addr -> json -> Prop :=
| sb_4 addrs js : Forall2 (shows_address 32) addrs js ->
    shows_block ([0; 1], addrs) (JObj [(cstr "addressFamily", JStr (cstr "IPv4")); (cstr "addresses", JArr js)])
| sb_6 addrs js : Forall2 (shows_address 128) addrs js ->
    shows_block ([0; 2], addrs) (JObj [(cstr "addressFamily", JStr (cstr "IPv6")); (cstr "addresses", JArr js)])
| sb_other f s addrs js : f <> [0; 1] -> f <> [0; 2] -> hex_text s f -> Forall2 shows_unknown_address addrs js ->
    shows_block (f, addrs) (JObj [(cstr "addressFamily", JStr s); (cstr "addresses", JArr js)]).
Inductive shows_roa (version : option (list Z)) (asid : list Z) (blocks : list (list Z * list roa_addr)) : json -> Prop :=
| sr v a js : shows_optional "version" version v -> shows_integer asid a -> Forall2 shows_block blocks js ->
    shows_roa version asid blocks (JObj (v ++ [(cstr "asId", a); (cstr "ipAddrBlocks", JArr js)])).

(** ** Manifests.  [oid_name]: the text of an object identifier. *)
Inductive shows_time (st : list Z) : json -> Prop := st_intro s : time_text st s -> shows_time st (JStr s).
(** (Times longer than 21 characters aren't shown.) *)
Definition shows_utctime (st : list Z) (j : json) : Prop := (length st <= 21)%nat /\ shows_time (in_century st) j.
Inductive shows_file (f : fah) : json -> Prop :=
| sf s : utf8 (f_file f) -> hex_text s (f_hash f) -> shows_file f (JObj [(cstr "file", JStr (f_file f)); (cstr "hash", JStr s)]).
Inductive shows_manifest (oid_name : list Z -> option (list Z)) (version : option (list Z)) (number this next alg : list Z) (files : list fah) : json -> Prop :=
| sm v n t t' s js : shows_optional "version" version v -> shows_integer number n -> shows_time this t -> shows_time next t' ->
    oid_name alg = Some s -> utf8 s -> Forall2 shows_file files js ->
    shows_manifest oid_name version number this next alg files
      (JObj (v ++ [(cstr "manifestNumber", n); (cstr "thisUpdate", t); (cstr "nextUpdate", t'); (cstr "fileHashAlg", JStr s); (cstr "fileList", JArr js)])).

(** ** Signed objects: what's at the end of a path of names. *)
Fixpoint at_path (path : list string) (j : json) : option json :=
  match path with
  | [] => Some j
  | name :: path => match json_object_get j (cstr name) with Some j => at_path path j | None => None end
  end.

(** The outcome of showing something: [P] is what may be shown. *)
Definition outcome (r : res json) (P : json -> Prop) : Prop :=
  match r with
  | Ok j => P j
  | Err _ => forall j, ~ P j
  | UB => False
  end.
