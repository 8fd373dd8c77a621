(** Model of src/object/roa.c. *)
From Verif Require Import Base Types DbTable PduWireSpec Address SArray Asn1 Resources.

(** asn1c structures: ROAIPAddress, ROAIPAddressFamily, RouteOriginAttestation.
    [None] as a list: its array pointer is NULL; as an element: a NULL element. *)
Record roa_addr := { ra_address : bit_string; ra_max : option (list Z) }.
Record roa_block := { rb_family : list Z; rb_addresses : option (list roa_addr) }.
Record roa := { roa_version : option (list Z); roa_asid : list Z; roa_blocks : option (list (option roa_block)) }.

(** The maxLength part of src/object/roa.c:34-61 and 90-117. *)
Definition max_length_of (bound len : Z) (m : option (list Z)) : option Z :=
  match m with
  | Some i =>
      match asn_INTEGER2ulong i with
      | None => None
      | Some max_length => if bound <? max_length then None
                           else if max_length <? len then None
                           else Some max_length
      end
  | None => Some len
  end.

(** src/object/roa.c:20-74 [____handle_roa_v4]; vhandler_handle_roa_v4
    (src/validation_handler.c:22-33) reaches rtrhandler_handle_roa_v4 of the
    thread's table (src/rtr/db/vrps.c:136-141), which cannot fail. *)
Definition handle_roa_v4 (h : heap) (parent : resources) (db : db_table) (asn : Z) (a : roa_addr)
    : res (db_table * Z) :=
  match prefix4_decode (ra_address a) with
  | UB => UB
  | Err _ => Ok (db, E_INVAL)
  | Ok (addr, len) =>
      match max_length_of 32 len (ra_max a) with
      | None => Ok (db, E_INVAL)
      | Some max_length =>
          bind (resources_contains_ipv4 h parent (addr, len)) (fun b =>
          if negb b then Ok (db, E_INVAL)
          else Ok (rtrhandler_handle_roa_v4 db asn addr len max_length, 0))
      end
  end.

(** src/object/roa.c:76-130 [____handle_roa_v6]. *)
Definition handle_roa_v6 (h : heap) (parent : resources) (db : db_table) (asn : Z) (a : roa_addr)
    : res (db_table * Z) :=
  match prefix6_decode (ra_address a) with
  | UB => UB
  | Err _ => Ok (db, E_INVAL)
  | Ok (addr, len) =>
      match max_length_of 128 len (ra_max a) with
      | None => Ok (db, E_INVAL)
      | Some max_length =>
          bind (resources_contains_ipv6 h parent (addr, len)) (fun b =>
          if negb b then Ok (db, E_INVAL)
          else Ok (rtrhandler_handle_roa_v6 db asn (be addr) len max_length, 0))
      end
  end.

(** src/object/roa.c:132-144 [____handle_roa]. *)
Definition handle_roa_addr (h : heap) (parent : resources) (db : db_table) (asn family : Z) (a : roa_addr)
    : res (db_table * Z) :=
  if family =? 1 then handle_roa_v4 h parent db asn a
  else if family =? 2 then handle_roa_v6 h parent db asn a
  else Ok (db, E_INVAL).

(** src/object/roa.c:219-227: the addresses of one block. *)
Fixpoint addr_loop (h : heap) (parent : resources) (db : db_table) (asn family : Z) (l : list roa_addr)
    : res (db_table * Z) :=
  match l with
  | [] => Ok (db, 0)
  | a :: l' =>
      bind (handle_roa_addr h parent db asn family a) (fun '(db, error) =>
      if negb (error =? 0) then Ok (db, error) else addr_loop h parent db asn family l')
  end.

(** src/object/roa.c:195-229: the blocks. *)
Fixpoint roa_block_loop (h : heap) (parent : resources) (db : db_table) (asn : Z) (l : list (option roa_block))
    : res (db_table * Z) :=
  match l with
  | [] => Ok (db, 0)
  | None :: _ => Ok (db, E_INVAL)
  | Some b :: l' =>
      match rb_family b with
      | [f0; f1] =>
          if negb (f0 =? 0) then Ok (db, E_INVAL)
          else if negb (f1 =? 1) && negb (f1 =? 2) then Ok (db, E_INVAL)
          else match rb_addresses b with
               | None => Ok (db, E_INVAL)
               | Some addrs =>
                   bind (addr_loop h parent db asn f1 addrs) (fun '(db, error) =>
                   if negb (error =? 0) then Ok (db, error) else roa_block_loop h parent db asn l')
               end
      | _ => Ok (db, E_INVAL)
      end
  end.

(** src/object/roa.c:146-245 [__handle_roa]. *)
Definition handle_roa (h : heap) (parent : resources) (db : db_table) (r : roa) : res (db_table * Z) :=
  let version_ok := match roa_version r with
                    | None => true
                    | Some v => match asn_INTEGER2ulong v with Some n => n =? 0 | None => false end
                    end in
  if negb version_ok then Ok (db, E_INVAL)
  else match asn_INTEGER2ulong (roa_asid r) with
  | None => Ok (db, E_INVAL)
  | Some asn =>
      if UINT_MAX <? asn then Ok (db, E_INVAL)
      else match roa_blocks r with
      | None => Ok (db, E_INVAL)
      | Some blocks => roa_block_loop h parent db asn blocks
      end
  end.

(** A ROA file, as far as src/object/roa.c:247-295 [roa_traverse] can tell:
    the error of the steps before the resources of the EE certificate are read
    (decoding, CRL, every check of signed_object_validate except its last one,
    src/asn1/signed_data.c:82-107), what those read, and the error of
    refs_validate_ee (src/certificate_refs.c:89-99). *)
Record roa_file := {
  rf_before : Z;
  rf_policy : policy;
  rf_exts : list extension;
  rf_roa : roa;
  rf_refs : Z;
}.

(** src/object/roa.c:247-295 [roa_traverse].  [parent]: the issuer's resources,
    at the top of the certificate stack. *)
Definition roa_traverse (h : heap) (parent : option resources) (db : db_table) (f : roa_file)
    : res (heap * db_table * Z) :=
  if negb (rf_before f =? 0) then Ok (h, db, rf_before f)
  else bind (ee_resources h parent (rf_policy f) false (rf_exts f)) (fun '(h, ee, error) =>
       if negb (error =? 0) then Ok (h, db, error)
       else bind (handle_roa h ee db (rf_roa f)) (fun '(db, error) =>
            if negb (error =? 0) then Ok (h, db, error)
            else Ok (h, db, rf_refs f))).
