(** The files FORT writes for other programs: src/output_printer.c. *)
From Coq Require Import String.
From Verif Require Import Base CString Types DbTable Vrps Oid Ntop.
Notation length := List.length.

(** inet_ntop(addr_fam, prefix). *)
Definition ntop (f : family) (a : Z) : list Z := match f with AF_INET => ntop4 a | AF_INET6 => ntop6 a end.

(** src/output_printer.c:27-40 [print_roa_csv].  (The functions return what they
    print; what becomes of it is [kept], below.) *)
Definition print_roa_csv (v : vrp) : list Z :=
  cstr "AS" ++ udec (v_asn v) ++ cstr "," ++ ntop (v_fam v) (v_addr v) ++ cstr "/" ++ udec (v_len v) ++ cstr "," ++ udec (v_max v) ++ [10].

(** A double quote. *)
Definition q : list Z := [34].
(** src/output_printer.c:42-65 [print_roa_json]; [first]: json_out->first. *)
Definition print_roa_json (first : bool) (v : vrp) : list Z :=
  (if first then [] else cstr ",") ++
  [10] ++ cstr "  { " ++ q ++ cstr "asn" ++ q ++ cstr ": " ++ q ++ cstr "AS" ++ udec (v_asn v) ++ q ++
  cstr ", " ++ q ++ cstr "prefix" ++ q ++ cstr ": " ++ q ++ ntop (v_fam v) (v_addr v) ++ cstr "/" ++ udec (v_len v) ++ q ++
  cstr ", " ++ q ++ cstr "maxLength" ++ q ++ cstr ": " ++ udec (v_max v) ++ cstr " }".

(** BIO_f_base64() (libcrypto), without newlines: RFC 4648 section 4. *)
Definition b64char (n : Z) : Z :=
  if n <? 26 then 65 + n else if n <? 52 then 71 + n else if n <? 62 then n - 4 else if n =? 62 then 43 else 47.
Fixpoint base64 (l : list Z) : list Z :=
  match l with
  | a :: b :: c :: l => b64char (a / 4) :: b64char (a mod 4 * 16 + b / 16) :: b64char (b mod 16 * 4 + c / 64) :: b64char (c mod 64) :: base64 l
  | [a; b] => [b64char (a / 4); b64char (a mod 4 * 16 + b / 16); b64char (b mod 16 * 4); 61]
  | [a] => [b64char (a / 4); b64char (a mod 4 * 16); 61; 61]
  | [] => []
  end.
(** src/crypto/base64.c:183-212 [to_base64url].  [base] isn't a string: strchr() finds a '=' or
    reads beyond it. *)
Fixpoint before (c : Z) (s : list Z) : option (list Z) :=
  match s with
  | [] => None
  | x :: s => if x =? c then Some [] else match before c s with Some p => Some (x :: p) | None => None end
  end.
Definition to_base64url (base : list Z) : res (list Z) :=
  match before 61 base with
  | None => UB
  | Some s => Ok (map (fun c => if c =? 43 then 45 else if c =? 47 then 95 else c) s)
  end.
(** src/crypto/base64.c:222-254 [base64url_encode] (but for what happens when there is no memory). *)
Definition base64url_encode (l : list Z) : res (list Z) := to_base64url (base64 l).

(** src/output_printer.c:68-89 [print_router_key_csv]. *)
Definition print_router_key_csv (k : router_key) : res (list Z) :=
  bind (base64url_encode (rk_ski k)) (fun ski =>
  bind (base64url_encode (rk_spk k)) (fun spk =>
  Ok (cstr "AS" ++ udec (rk_asn k) ++ cstr "," ++ ski ++ cstr "," ++ spk ++ [10]))).
(** src/output_printer.c:92-124 [print_router_key_json]. *)
Definition print_router_key_json (first : bool) (k : router_key) : res (list Z) :=
  bind (base64url_encode (rk_ski k)) (fun ski =>
  bind (base64url_encode (rk_spk k)) (fun spk =>
  Ok ((if first then [] else cstr ",") ++
      [10] ++ cstr "  { " ++ q ++ cstr "asn" ++ q ++ cstr ": " ++ q ++ cstr "AS" ++ udec (rk_asn k) ++ q ++
      cstr ", " ++ q ++ cstr "ski" ++ q ++ cstr ": " ++ q ++ ski ++ q ++
      cstr ", " ++ q ++ cstr "spki" ++ q ++ cstr ": " ++ q ++ spk ++ q ++ cstr " }"))).

(** src/rtr/db/db_table.c:123-139, 141-157 [db_table_foreach_roa], [db_table_foreach_router_key], with those
    callbacks (which never fail). *)
Fixpoint each {A} (f : bool -> A -> res (list Z)) (first : bool) (l : list A) : res (list Z) :=
  match l with
  | [] => Ok []
  | x :: l => bind (f first x) (fun a => bind (each f false l) (fun b => Ok (a ++ b)))
  end.

Inductive output_format := OFM_CSV | OFM_JSON.
(** src/output_printer.c:126-154 [print_roas]: what is printed to the file. *)
Definition print_roas (fmt : output_format) (t : db_table) : res (list Z) :=
  match fmt with
  | OFM_CSV => bind (each (fun _ v => Ok (print_roa_csv v)) true (t_roas t)) (fun s => Ok (cstr "ASN,Prefix,Max prefix length" ++ [10] ++ s))
  | OFM_JSON => bind (each (fun f v => Ok (print_roa_json f v)) true (t_roas t)) (fun s => Ok (cstr "{ " ++ q ++ cstr "roas" ++ q ++ cstr " : [" ++ s ++ [10] ++ cstr "]}" ++ [10]))
  end.
(** src/output_printer.c:156-184 [print_router_keys]. *)
Definition print_router_keys (fmt : output_format) (t : db_table) : res (list Z) :=
  match fmt with
  | OFM_CSV => bind (each (fun _ k => print_router_key_csv k) true (t_rks t)) (fun s => Ok (cstr "ASN,Subject Key Identifier,Subject Public Key Info" ++ [10] ++ s))
  | OFM_JSON => bind (each print_router_key_json true (t_rks t)) (fun s => Ok (cstr "{ " ++ q ++ cstr "router-keys" ++ q ++ cstr " : [" ++ s ++ [10] ++ cstr "]}" ++ [10]))
  end.
(** src/output_printer.c:186-191 [output_print_data]: both. *)
Definition output_print_data (fmt : output_format) (t : db_table) : res (list Z * list Z) :=
  bind (print_roas fmt t) (fun a => bind (print_router_keys fmt t) (fun b => Ok (a, b))).

(** What is in the file, if the process dies, the disk fills up, or a write fails
    otherwise, after [room] bytes: fprintf()'s and fclose()'s results aren't looked
    at. *)
Definition kept (room : nat) (s : list Z) : list Z := firstn room s.

(** src/rtr/db/vrps.c:180-238 [__vrps_update], with the files (both configured): the program's memory, and the contents of the
    files output.roa and output.bgpsec.  [vrps_update] is the rest of it. *)
Record published := { p_state : state; p_roas : list Z; p_keys : list Z }.
Definition update_and_print (fmt : output_format) (lifetime : Z) (p : published) (c : cycle) : res published :=
  bind (match c with
        | Validated t => output_print_data fmt t
        | ValidationFailed | SlurmFailed _ => Ok (p_roas p, p_keys p)
        end) (fun files =>
  bind (vrps_update lifetime (p_state p) c) (fun o =>
  Ok {| p_state := u_state o; p_roas := fst files; p_keys := snd files |})).
Fixpoint print_run (fmt : output_format) (lifetime : Z) (p : published) (cs : list cycle) : res published :=
  match cs with
  | [] => Ok p
  | c :: cs => bind (update_and_print fmt lifetime p c) (fun p => print_run fmt lifetime p cs)
  end.
