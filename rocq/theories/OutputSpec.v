(** Specification vocabulary for C83: what programs that read FORT's output files
    understand.  Independent of the functions that print them. *)
From Coq Require Import String.
From Verif Require Import Base CString Types DbTable Vrps OidSpec NtopSpec Output.
Notation length := List.length.

(** What a VRP, and a router key, are. *)
Definition valid_vrp (v : vrp) : Prop :=
  is_u32 (v_asn v) /\ is_byte (v_len v) /\ is_byte (v_max v) /\
  match v_fam v with AF_INET => 0 <= v_addr v < 2 ^ 32 | AF_INET6 => 0 <= v_addr v < 2 ^ 128 end.
Definition valid_key (k : router_key) : Prop :=
  is_u32 (rk_asn k) /\ length (rk_ski k) = 20%nat /\ Forall is_byte (rk_ski k) /\ length (rk_spk k) = 91%nat /\ Forall is_byte (rk_spk k).

(** *** Fields *)
(** "AS64496" *)
Definition read_asn (s : list Z) : option Z :=
  match s with 65 :: 83 :: n => dec n | _ => None end.
(** "192.0.2.0/24", "2001:db8::/32" *)
Definition read_prefix (s : list Z) : option (family * Z * Z) :=
  match split 47 s with
  | [a; l] =>
      match (if existsb (Z.eqb 58) a then option_map (fun w => (AF_INET6, value w)) (read6 a) else option_map (fun v => (AF_INET, v)) (read4 a)), dec l with
      | Some (f, v), Some l => Some (f, v, l)
      | _, _ => None
      end
  | _ => None
  end.
(** Base 64 with the URL and filename safe alphabet (RFC 4648 section 5), without padding. *)
Definition b64val (c : Z) : Z :=
  if (65 <=? c) && (c <=? 90) then c - 65 else if (97 <=? c) && (c <=? 122) then c - 71
  else if (48 <=? c) && (c <=? 57) then c + 4 else if c =? 45 then 62 else if c =? 95 then 63 else -1.
Fixpoint unbits (l : list Z) : list Z :=
  match l with
  | a :: b :: c :: d :: l => (a * 4 + b / 16) :: (b mod 16 * 16 + c / 4) :: (c mod 4 * 64 + d) :: unbits l
  | [a; b; c] => [a * 4 + b / 16; b mod 16 * 16 + c / 4]
  | [a; b] => [a * 4 + b / 16]
  | _ => []
  end.
Definition unbase64url (s : list Z) : list Z := unbits (map b64val s).

Definition same (a b : list Z) : bool := list_eqb Z.eqb a b.
(** *** CSV: a header, then a line for each record, the fields separated by commas *)
Fixpoint all_some {A} (l : list (option A)) : option (list A) :=
  match l with
  | [] => Some []
  | None :: _ => None
  | Some a :: l => match all_some l with Some l => Some (a :: l) | None => None end
  end.
Definition read_csv {A} (record : list (list Z) -> option A) (header : string) (file : list Z) : option (list A) :=
  match split 10 file with
  | h :: lines =>
      if same h (cstr header) && same (last lines [1]) []
      then all_some (map (fun line => record (split 44 line)) (removelast lines)) else None
  | [] => None
  end.
Definition csv_roa (fields : list (list Z)) : option vrp :=
  match fields with
  | [a; p; m] =>
      match read_asn a, read_prefix p, dec m with
      | Some asn, Some (f, addr, len), Some max => Some {| v_asn := asn; v_fam := f; v_addr := addr; v_len := len; v_max := max |}
      | _, _, _ => None
      end
  | _ => None
  end.
Definition csv_key (fields : list (list Z)) : option router_key :=
  match fields with
  | [a; s; p] => match read_asn a with Some asn => Some {| rk_ski := unbase64url s; rk_asn := asn; rk_spk := unbase64url p |} | None => None end
  | _ => None
  end.
Definition roas_csv : list Z -> option (list vrp) := read_csv csv_roa "ASN,Prefix,Max prefix length".
Definition keys_csv : list Z -> option (list router_key) := read_csv csv_key "ASN,Subject Key Identifier,Subject Public Key Info".

(** *** JSON (RFC 8259).  Escapes in strings are not decoded.  [JWord]: the numbers, true, false, null (and more). *)
Inductive json :=
| JStr (s : list Z) | JWord (s : list Z) | JArr (l : list json) | JObj (l : list (list Z * json)).
Definition ws (s : list Z) : Prop := Forall (fun c => c = 32 \/ c = 9 \/ c = 10 \/ c = 13) s.
(** What is between the quotes. *)
Inductive quoted : list Z -> Prop :=
| quoted_end : quoted []
| quoted_plain c s : 32 <= c -> c <> 34 -> c <> 92 -> quoted s -> quoted (c :: s)
| quoted_escape c s : quoted s -> quoted (92 :: c :: s).
(** Letters, digits, signs and points. *)
Definition wordchar (c : Z) : Prop := 48 <= c <= 57 \/ 65 <= c <= 90 \/ 97 <= c <= 122 \/ c = 43 \/ c = 45 \/ c = 46.
Inductive text : json -> list Z -> Prop :=
| text_str s : quoted s -> text (JStr s) (34 :: s ++ [34])
| text_word s : s <> [] -> Forall wordchar s -> text (JWord s) s
| text_arr l s : elements l s -> text (JArr l) (91 :: s ++ [93])
| text_obj l s : members l s -> text (JObj l) (123 :: s ++ [125])
with elements : list json -> list Z -> Prop :=
| elements_none w : ws w -> elements [] w
| elements_one w1 v t w2 : ws w1 -> text v t -> ws w2 -> elements [v] (w1 ++ t ++ w2)
| elements_more w1 v t w2 l s : ws w1 -> text v t -> ws w2 -> elements l s -> l <> [] -> elements (v :: l) (w1 ++ t ++ w2 ++ 44 :: s)
with members : list (list Z * json) -> list Z -> Prop :=
| members_none w : ws w -> members [] w
| members_one w1 k w2 w3 v t w4 : ws w1 -> quoted k -> ws w2 -> ws w3 -> text v t -> ws w4 ->
    members [(k, v)] (w1 ++ (34 :: k ++ [34]) ++ w2 ++ 58 :: w3 ++ t ++ w4)
| members_more w1 k w2 w3 v t w4 l s : ws w1 -> quoted k -> ws w2 -> ws w3 -> text v t -> ws w4 -> members l s -> l <> [] ->
    members ((k, v) :: l) (w1 ++ (34 :: k ++ [34]) ++ w2 ++ 58 :: w3 ++ t ++ w4 ++ 44 :: s).
(** A file that is that value. *)
Definition document (v : json) (file : list Z) : Prop :=
  exists w1 t w2, ws w1 /\ text v t /\ ws w2 /\ file = w1 ++ t ++ w2.

(** The records. *)
Definition json_roa (v : json) : option vrp :=
  match v with
  | JObj [(k1, JStr a); (k2, JStr p); (k3, JWord m)] =>
      if same k1 (cstr "asn") && same k2 (cstr "prefix") && same k3 (cstr "maxLength") then
        match read_asn a, read_prefix p, dec m with
        | Some asn, Some (f, addr, len), Some max => Some {| v_asn := asn; v_fam := f; v_addr := addr; v_len := len; v_max := max |}
        | _, _, _ => None
        end
      else None
  | _ => None
  end.
Definition json_key (v : json) : option router_key :=
  match v with
  | JObj [(k1, JStr a); (k2, JStr s); (k3, JStr p)] =>
      if same k1 (cstr "asn") && same k2 (cstr "ski") && same k3 (cstr "spki") then
        match read_asn a with Some asn => Some {| rk_ski := unbase64url s; rk_asn := asn; rk_spk := unbase64url p |} | None => None end
      else None
  | _ => None
  end.
(** The file is {"name": [records]}, and these are the records. *)
Definition json_file {A} (record : json -> option A) (name : string) (file : list Z) (l : list A) : Prop :=
  exists vs, document (JObj [(cstr name, JArr vs)]) file /\ all_some (map record vs) = Some l.
Definition roas_json : list Z -> list vrp -> Prop := json_file json_roa "roas".
Definition keys_json : list Z -> list router_key -> Prop := json_file json_key "router-keys".

(** The records a file has, in either format. *)
Definition lists_roas (fmt : output_format) (file : list Z) (l : list vrp) : Prop :=
  match fmt with OFM_CSV => roas_csv file = Some l | OFM_JSON => roas_json file l end.
Definition lists_keys (fmt : output_format) (file : list Z) (l : list router_key) : Prop :=
  match fmt with OFM_CSV => keys_csv file = Some l | OFM_JSON => keys_json file l end.
Definition valid_table (t : db_table) : Prop := Forall valid_vrp (t_roas t) /\ Forall valid_key (t_rks t) /\ NoDup (t_roas t) /\ NoDup (t_rks t).
Definition valid_cycle (c : cycle) : Prop := match c with Validated t => valid_table t | _ => True end.
