(** Model of src/resource.c, of the resource extraction of
    src/object/certificate.c:1090-1245 and of src/cert_stack.c:242-273.

    The resource arrays are heap objects shared by inheriting certificates, and
    the code compares their pointers; so the model has a heap: three lists of
    arrays, and pointers (NULL or an index).  Reference counts and free() are
    not modelled: cells are never reclaimed. *)
From Verif Require Import Base Address SArray Asn1.

Definition ptr := option nat.
Definition ptr_eqb (p q : ptr) : bool :=
  match p, q with
  | None, None => true
  | Some i, Some j => (i =? j)%nat
  | _, _ => false
  end.
Record heap := { h4 : list resources_ipv4; h6 : list resources_ipv6; ha : list resources_asn }.

Inductive policy : Set := RFC6484 | RFC8360.

(** src/resource.c:11-26 [struct resources]. *)
Record resources := {
  r_ip4s : ptr;
  r_ip6s : ptr;
  r_asns : ptr;
  r_policy : policy;
  r_force_inherit : bool;
}.

(** src/resource.c:28-42 [resources_create]. *)
Definition resources_create (p : policy) (force_inherit : bool) : resources :=
  {| r_ip4s := None; r_ip6s := None; r_asns := None; r_policy := p; r_force_inherit := force_inherit |}.

(** pr_val_err() returns -EINVAL (src/log.c); pr_val_warn() returns 0. *)
Definition E_INVAL : Z := -22.

(** src/resource.c:56-78 [get_addr_family]: 4, 6 or -1 (AF_INET, AF_INET6). *)
Definition get_addr_family (octets : list Z) : Z :=
  match octets with
  | [b0; b1] => if negb (b0 =? 0) then -1
                else if b1 =? 1 then 4 else if b1 =? 2 then 6 else -1
  | _ => -1
  end.

(** Dereferencing a pointer that may be NULL. *)
Definition cell {A} (cells : list (sarray A)) (p : ptr) : res (option (sarray A)) :=
  match p with
  | None => Ok None
  | Some i => match nth_error cells i with Some s => Ok (Some s) | None => UB end
  end.

(** The body shared (textually, up to the function names) by
    src/resource.c:119-159 [add_prefix4], 161-201 [add_prefix6], 217-258
    [add_range4], 260-301 [add_range6] and 423-496 [add_asn]/[add_asior].
    [parent]: the parent certificate's pointer, when there is a parent.
    Returns the cells, our pointer, and the int result. *)
Definition add_item {A E} (add : sarray A -> E -> res (sarray A * Z))
    (contains : option (sarray A) -> E -> res bool)
    (pol : policy) (parent : option ptr) (cells : list (sarray A)) (mine : ptr) (decoded : res E)
    : res (list (sarray A) * ptr * Z) :=
  if match parent with Some pp => ptr_eqb mine pp | None => false end
  then Ok (cells, mine, E_INVAL)
  else match decoded with
  | UB => UB
  | Err _ => Ok (cells, mine, E_INVAL)
  | Ok e =>
      bind (match parent with
            | None => Ok true
            | Some pp => bind (cell cells pp) (fun s => contains s e)
            end) (fun owned =>
      if negb owned then
        Ok (cells, mine, match pol with RFC6484 => E_INVAL | RFC8360 => 0 end)
      else
        let '(cells, i) := match mine with
                           | None => (cells ++ [sarray_create A], length cells)
                           | Some i => (cells, i)
                           end in
        match nth_error cells i with
        | None => UB
        | Some s => bind (add s e) (fun '(s', error) => Ok (upd cells i s', Some i, error))
        end)
  end.

(** IPAddressOrRange, IPAddressChoice, IPAddressFamily (asn1c structures). *)
Inductive aor := AOR_prefix (p : bit_string) | AOR_range (lo hi : bit_string) | AOR_nothing.
Inductive ip_choice := IPC_nothing | IPC_inherit | IPC_aors (l : list aor).
Record ip_family := { f_family : list Z; f_choice : ip_choice }.

(** A step on one of the three sets, then the rest of the list: the loops of
    src/resource.c:330-350 and 512-516. *)
Fixpoint item_loop {A I} (step : list (sarray A) -> ptr -> I -> res (list (sarray A) * ptr * Z))
    (cells : list (sarray A)) (mine : ptr) (items : list I) : res (list (sarray A) * ptr * Z) :=
  match items with
  | [] => Ok (cells, mine, 0)
  | it :: items' =>
      bind (step cells mine it) (fun '(cells, mine, error) =>
      if negb (error =? 0) then Ok (cells, mine, error) else item_loop step cells mine items')
  end.

(** src/resource.c:119-159, 217-258, 330-349: one element of an IPv4 list. *)
Definition step_aor4 pol parent (cells : list resources_ipv4) (mine : ptr) (a : aor) :=
  match a with
  | AOR_prefix s => add_item res4_add_prefix res4_contains_prefix pol parent cells mine (prefix4_decode s)
  | AOR_range lo hi => add_item res4_add_range res4_contains_range pol parent cells mine (range4_decode lo hi)
  | AOR_nothing => Ok (cells, mine, E_INVAL)
  end.
(** src/resource.c:161-201, 260-301, 330-349: one element of an IPv6 list. *)
Definition step_aor6 pol parent (cells : list resources_ipv6) (mine : ptr) (a : aor) :=
  match a with
  | AOR_prefix s => add_item res6_add_prefix res6_contains_prefix pol parent cells mine (prefix6_decode s)
  | AOR_range lo hi => add_item res6_add_range res6_contains_range pol parent cells mine (range6_decode lo hi)
  | AOR_nothing => Ok (cells, mine, E_INVAL)
  end.

(** src/resource.c:317-353 [add_aors]. *)
Definition add_aors (h : heap) (r : resources) (parent : option resources) (fam : Z) (l : list aor)
    : res (heap * resources * Z) :=
  if r_force_inherit r then Ok (h, r, E_INVAL)
  else match l with
  | [] => Ok (h, r, E_INVAL)
  | _ =>
      if fam =? 4 then
        bind (item_loop (step_aor4 (r_policy r) (option_map r_ip4s parent)) (h4 h) (r_ip4s r) l)
          (fun '(cells, p, error) =>
             Ok ({| h4 := cells; h6 := h6 h; ha := ha h |},
                 {| r_ip4s := p; r_ip6s := r_ip6s r; r_asns := r_asns r;
                    r_policy := r_policy r; r_force_inherit := r_force_inherit r |}, error))
      else
        bind (item_loop (step_aor6 (r_policy r) (option_map r_ip6s parent)) (h6 h) (r_ip6s r) l)
          (fun '(cells, p, error) =>
             Ok ({| h4 := h4 h; h6 := cells; ha := ha h |},
                 {| r_ip4s := r_ip4s r; r_ip6s := p; r_asns := r_asns r;
                    r_policy := r_policy r; r_force_inherit := r_force_inherit r |}, error))
  end.

(** src/resource.c:86-117 [inherit_aors].  Without a parent it calls pr_crit(),
    which kills the process: [UB]. *)
Definition inherit_aors (h : heap) (r : resources) (parent : option resources) (fam : Z)
    : res (heap * resources * Z) :=
  match parent with
  | None => UB
  | Some pa =>
      if fam =? 4 then
        match r_ip4s r with
        | Some _ => Ok (h, r, E_INVAL)
        | None => Ok (h, {| r_ip4s := r_ip4s pa; r_ip6s := r_ip6s r; r_asns := r_asns r;
                            r_policy := r_policy r; r_force_inherit := r_force_inherit r |}, 0)
        end
      else
        match r_ip6s r with
        | Some _ => Ok (h, r, E_INVAL)
        | None => Ok (h, {| r_ip4s := r_ip4s r; r_ip6s := r_ip6s pa; r_asns := r_asns r;
                            r_policy := r_policy r; r_force_inherit := r_force_inherit r |}, 0)
        end
  end.

(** src/resource.c:355-377 [resources_add_ip]. *)
Definition resources_add_ip (h : heap) (r : resources) (parent : option resources) (obj : ip_family)
    : res (heap * resources * Z) :=
  let family := get_addr_family (f_family obj) in
  if family =? -1 then Ok (h, r, E_INVAL)
  else match f_choice obj with
  | IPC_nothing => Ok (h, r, E_INVAL)
  | IPC_inherit => inherit_aors h r parent family
  | IPC_aors l => add_aors h r parent family l
  end.

(** ASIdOrRange, ASIdentifierChoice, ASIdentifiers; integers are byte strings. *)
Inductive asior := ASI_id (i : list Z) | ASI_range (lo hi : list Z) | ASI_nothing.
Inductive as_choice := ASC_nothing | ASC_inherit | ASC_iors (l : list asior).
Record as_ids := { as_num : option as_choice; as_rdi : bool }.

(** src/resource.c:398-421 [ASId2u32]. *)
Definition ASId2u32 (i : list Z) : res Z :=
  match asn_INTEGER2ulong i with
  | None => Err EINVAL
  | Some v => if UINT_MAX <? v then Err EINVAL else Ok v
  end.

(** src/resource.c:474-495 (the switch of [add_asior]) and 429-432 (the inverted
    range check at the head of [add_asn]). *)
Definition decode_asior (a : asior) : res (Z * Z) :=
  match a with
  | ASI_nothing => Err EINVAL
  | ASI_id i => bind (ASId2u32 i) (fun v => Ok (v, v))
  | ASI_range lo hi =>
      bind (ASId2u32 lo) (fun a => bind (ASId2u32 hi) (fun b =>
      if b <? a then Err EINVAL else Ok (a, b)))
  end.
(** src/resource.c:423-496 [add_asn], [add_asior]. *)
Definition step_asior pol parent (cells : list resources_asn) (mine : ptr) (a : asior) :=
  add_item rasn_add rasn_contains pol parent cells mine (decode_asior a).

(** src/resource.c:498-519 [add_asiors]. *)
Definition add_asiors (h : heap) (r : resources) (parent : option resources) (l : list asior)
    : res (heap * resources * Z) :=
  if r_force_inherit r then Ok (h, r, E_INVAL)
  else match l with
  | [] => Ok (h, r, E_INVAL)
  | _ =>
      bind (item_loop (step_asior (r_policy r) (option_map r_asns parent)) (ha h) (r_asns r) l)
        (fun '(cells, p, error) =>
           Ok ({| h4 := h4 h; h6 := h6 h; ha := cells |},
               {| r_ip4s := r_ip4s r; r_ip6s := r_ip6s r; r_asns := p;
                  r_policy := r_policy r; r_force_inherit := r_force_inherit r |}, error))
  end.

(** src/resource.c:379-396 [inherit_asiors]. *)
Definition inherit_asiors (h : heap) (r : resources) (parent : option resources)
    : res (heap * resources * Z) :=
  match parent with
  | None => UB
  | Some pa =>
      match r_asns r with
      | Some _ => Ok (h, r, E_INVAL)
      | None => Ok (h, {| r_ip4s := r_ip4s r; r_ip6s := r_ip6s r; r_asns := r_asns pa;
                          r_policy := r_policy r; r_force_inherit := r_force_inherit r |}, 0)
      end
  end.

(** src/resource.c:521-543 [resources_add_asn]. *)
Definition resources_add_asn (h : heap) (r : resources) (parent : option resources) (ids : as_ids)
    (allow_inherit : bool) : res (heap * resources * Z) :=
  match as_num ids with
  | None => Ok (h, r, E_INVAL)
  | Some c =>
      if as_rdi ids then Ok (h, r, E_INVAL)
      else match c with
      | ASC_inherit => if negb allow_inherit then Ok (h, r, E_INVAL) else inherit_asiors h r parent
      | ASC_iors l => add_asiors h r parent l
      | ASC_nothing => Ok (h, r, E_INVAL)
      end
  end.

(** src/resource.c:545-551 [resources_empty]. *)
Definition resources_empty (h : heap) (r : resources) : res bool :=
  bind (cell (ha h) (r_asns r)) (fun a =>
  bind (cell (h4 h) (r_ip4s r)) (fun b =>
  bind (cell (h6 h) (r_ip6s r)) (fun c =>
  Ok (rasn_empty a && res4_empty b && res6_empty c)))).

(** src/object/certificate.c:1120-1121: add every block until one fails. *)
Fixpoint block_loop (h : heap) (r : resources) (parent : option resources) (l : list ip_family)
    : res (heap * resources * Z) :=
  match l with
  | [] => Ok (h, r, 0)
  | b :: l' =>
      bind (resources_add_ip h r parent b) (fun '(h, r, error) =>
      if negb (error =? 0) then Ok (h, r, error) else block_loop h r parent l')
  end.

(** src/object/certificate.c:1090-1137 [handle_ip_extension]; [None]: the
    extension does not decode. *)
Definition handle_ip_extension (h : heap) (r : resources) (parent : option resources)
    (blocks : option (list ip_family)) : res (heap * resources * Z) :=
  match blocks with
  | None => Ok (h, r, E_INVAL)
  | Some [b] => block_loop h r parent [b]
  | Some [b1; b2] =>
      if negb (get_addr_family (f_family b1) =? 4) then Ok (h, r, E_INVAL)
      else if negb (get_addr_family (f_family b2) =? 6) then Ok (h, r, E_INVAL)
      else block_loop h r parent [b1; b2]
  | Some _ => Ok (h, r, E_INVAL)
  end.

(** src/object/certificate.c:1139-1157 [handle_asn_extension]. *)
Definition handle_asn_extension (h : heap) (r : resources) (parent : option resources)
    (ids : option as_ids) (allow_inherit : bool) : res (heap * resources * Z) :=
  match ids with
  | None => Ok (h, r, E_INVAL)
  | Some ids => resources_add_asn h r parent ids allow_inherit
  end.

(** A certificate's extensions, as far as this code looks at them: version 1
    (RFC 3779) and version 2 (RFC 8360) resource extensions, with the critical
    flag and the decoded content ([None]: undecodable); anything else. *)
Inductive extension :=
| ExtIP (v : policy) (critical : bool) (blocks : option (list ip_family))
| ExtAS (v : policy) (critical : bool) (ids : option as_ids)
| ExtOther.

Definition policy_eqb (a b : policy) : bool :=
  match a, b with
  | RFC6484, RFC6484 | RFC8360, RFC8360 => true
  | _, _ => false
  end.

(** src/object/certificate.c:1166-1205: the loop of
    [__certificate_get_resources], with its two "found" flags. *)
Fixpoint extension_loop (h : heap) (r : resources) (parent : option resources) (allow_inherit : bool)
    (ip_found as_found : bool) (l : list extension) : res (heap * resources * Z) :=
  match l with
  | [] => Ok (h, r, if negb ip_found && negb as_found then E_INVAL else 0)
  | ExtOther :: l' => extension_loop h r parent allow_inherit ip_found as_found l'
  | ExtIP v critical blocks :: l' =>
      if negb (policy_eqb v (r_policy r)) then Ok (h, r, E_INVAL)
      else if ip_found then Ok (h, r, E_INVAL)
      else if negb critical then Ok (h, r, E_INVAL)
      else bind (handle_ip_extension h r parent blocks) (fun '(h, r, error) =>
           if negb (error =? 0) then Ok (h, r, error)
           else extension_loop h r parent allow_inherit true as_found l')
  | ExtAS v critical ids :: l' =>
      if negb (policy_eqb v (r_policy r)) then Ok (h, r, E_INVAL)
      else if as_found then Ok (h, r, E_INVAL)
      else if negb critical then Ok (h, r, E_INVAL)
      else bind (handle_asn_extension h r parent ids allow_inherit) (fun '(h, r, error) =>
           if negb (error =? 0) then Ok (h, r, error)
           else extension_loop h r parent allow_inherit ip_found true l')
  end.

Inductive cert_type : Set := CERTYPE_TA | CERTYPE_CA | CERTYPE_BGPSEC | CERTYPE_EE.

(** src/object/certificate.c:1148-1211, 1216-1239 [__certificate_get_resources],
    [certificate_get_resources]. *)
Definition certificate_get_resources (h : heap) (r : resources) (parent : option resources)
    (t : cert_type) (exts : list extension) : res (heap * resources * Z) :=
  extension_loop h r parent (match t with CERTYPE_BGPSEC => false | _ => true end) false false exts.

(** src/cert_stack.c:242-273 [init_resources]: what happens to the resources
    when a TA or CA certificate is pushed to the certificate stack. *)
Definition init_resources (h : heap) (parent : option resources) (p : policy) (t : cert_type)
    (exts : list extension) : res (heap * resources * Z) :=
  bind (certificate_get_resources h (resources_create p false) parent t exts) (fun '(h, r, error) =>
  if negb (error =? 0) then Ok (h, r, error)
  else match t with
       | CERTYPE_TA => bind (resources_empty h r) (fun e => Ok (h, r, if e then E_INVAL else 0))
       | _ => Ok (h, r, 0)
       end).

(** src/asn1/signed_data.c:18-24 [eecert_init], 103-104 [resources_set_policy]:
    the resources of a signed object's EE certificate. *)
Definition ee_resources (h : heap) (parent : option resources) (p : policy) (force_inherit : bool)
    (exts : list extension) : res (heap * resources * Z) :=
  certificate_get_resources h (resources_create p force_inherit) parent CERTYPE_EE exts.

(** src/resource.c:553-569 [resources_contains_asns], [resources_contains_ipv4],
    [resources_contains_ipv6]. *)
Definition resources_contains_ipv4 (h : heap) (r : resources) (p : Z * Z) : res bool :=
  bind (cell (h4 h) (r_ip4s r)) (fun s => res4_contains_prefix s p).
Definition resources_contains_ipv6 (h : heap) (r : resources) (p : list Z * Z) : res bool :=
  bind (cell (h6 h) (r_ip6s r)) (fun s => res6_contains_prefix s p).

(** The resource side of the certificate stack (src/cert_stack.c:288-348, 189-205
    and src/asn1/signed_data.c): a certificate is pushed, popped, or a signed
    object's EE certificate is examined; a rejected certificate leaves the stack
    alone but may have left garbage in the heap. *)
Inductive stack_op :=
| OpPush (p : policy) (t : cert_type) (exts : list extension)
| OpPop
| OpEE (p : policy) (force_inherit : bool) (exts : list extension).
Definition peek_resources (stack : list resources) : option resources := hd_error stack.
Definition stack_step (s : heap * list resources) (o : stack_op) : res (heap * list resources) :=
  let '(h, stack) := s in
  match o with
  | OpPush p t exts =>
      bind (init_resources h (peek_resources stack) p t exts) (fun '(h, r, error) =>
      Ok (h, if error =? 0 then r :: stack else stack))
  | OpPop => Ok (h, tl stack)
  | OpEE p f exts =>
      bind (ee_resources h (peek_resources stack) p f exts) (fun '(h, _, _) => Ok (h, stack))
  end.
