(** Model of the asn1c BER decoder (src/asn1/asn1c/ber_decoder.c,
    asn_codecs_prim.c, NULL.c, BOOLEAN.c, OCTET_STRING.c, constr_SEQUENCE.c,
    constr_SET_OF.c, constr_CHOICE.c), the code that turns the bytes of every
    RPKI signed object and of the RFC 3779 extensions into C structures.

    A decoder is given exactly the bytes it may look at (the [size] argument,
    or the smaller LEFT its caller computed): reading past them is [Fault].
    asn1_decode (src/asn1/decode.c:34-61) calls the decoder once, with a fresh
    structure and all the bytes, and treats RC_WMORE as an error; so the
    restart contexts are not modelled, RC_WMORE and RC_FAIL are the same
    [Failed], and the SIZE_VIOLATION tests that only choose between them are
    gone.  Allocations succeed.  ASN__STACK_OVERFLOW_CHECK is not modelled (the
    recursion follows the type, whose depth is fixed).  Inputs are shorter than
    2^31 bytes, so that the conversions to int do not matter. *)
From Verif Require Import Base Ber.

(** What a decoder returns: RC_OK, the bytes consumed and the value; failure;
    a read outside of its buffer (or a failed assert); or no return at all
    ([Spin]: the loop is still running after the given number of turns). *)
Inductive outcome (A : Type) : Type :=
| Done (n : nat) (a : A)
| Failed
| Fault
| Spin.
Arguments Done {A} n a.
Arguments Failed {A}.
Arguments Fault {A}.
Arguments Spin {A}.

(** src/asn1/asn1c/OCTET_STRING.h:68-76 [asn_OS_Subvariant] (the other
    variants are not used). *)
Inductive variant : Set := STR | BIT | ANY.

(** src/asn1/asn1c/constr_TYPE.h:86-122 [asn_TYPE_descriptor_t] and :128-151
    [asn_TYPE_member_t], the fields the decoder uses.  A tag is the C encoding
    (number << 2 | class); the member tag -1 ("not known in advance") is
    [None].  [t2e] is specs->tag2el: (tag, el_no). *)
Inductive ty : Type :=
| TPrim (tags : list Z)
| TNull (tags : list Z)
| TBool (tags : list Z)
| TString (v : variant) (tags all_tags : list Z)
| TSeq (tags : list Z) (t2e : list (Z * nat)) (ms : list member)
| TOf (tags : list Z) (etag : option Z) (elem : ty)
| TChoice (tags : list Z) (t2e : list (Z * nat)) (ms : list member)
with member : Type :=
| Member (mtag : option Z) (mode : Z) (optional : nat) (any : bool) (t : ty).

(** The C structures, as data: a missing OPTIONAL member is [None] (a NULL
    pointer); a BIT STRING has its bytes and its number of unused bits. *)
Inductive value : Type :=
| VBytes (bs : list Z)
| VBits (bs : list Z) (unused : Z)
| VNull
| VBool (b : Z)
| VSeq (ms : list (option value))
| VOf (vs : list value)
| VChoice (present : nat) (v : value).

(** ** Headers *)

(** src/asn1/asn1c/ber_decoder.c:127-258: the loop over the tags.  [exps] are the tags
    still expected ([None]: anything, at step 0 when tag_mode is not 0);
    [form] is last_tag_form ([None] is -1); [limit] and [nulls] are limit_len
    and expect_00_terminators.  The result is last_length and opt_tlv_form. *)
Fixpoint check_tags_loop (exps : list (option Z)) (form : option bool) (bs : list Z) (consumed : nat)
  (limit : Z) (nulls : nat) (tlv_len : Z) (constr : bool) : outcome (Z * bool) :=
  match exps with
  | [] => Done consumed (if (0 <? nulls)%nat then - Z.of_nat nulls else tlv_len, constr)
  | e :: exps' =>
      match ber_fetch_tag bs (length bs) with
      | Ok (Got tag_len tlv_tag) =>
          match bs with
          | [] => Fault
          | b0 :: _ =>
              let constr := constructed_bit b0 in
              if match e with None => false | Some t => negb (tlv_tag =? t) end then Failed else
              if match exps' with
                 | [] => match form with None => false | Some f => negb (Bool.eqb f constr) end
                 | _ :: _ => negb constr
                 end
              then Failed else
              match ber_fetch_length constr (skipn tag_len bs) (length bs - tag_len) with
              | Ok (Got len_len len) =>
                  let h := (tag_len + len_len)%nat in
                  if len =? -1 then
                    if limit =? -1
                    then check_tags_loop exps' form (skipn h bs) (consumed + h) limit (S nulls) len constr
                    else Failed
                  else if (0 <? nulls)%nat then Failed
                  else if (if limit =? -1 then len + Z.of_nat h <? 0 else negb (limit =? len + Z.of_nat h))
                  then Failed
                  else
                    let limit := len + Z.of_nat h - Z.of_nat h in
                    let bs := skipn h bs in
                    let bs := if limit <? Z.of_nat (length bs) then firstn (Z.to_nat limit) bs else bs in
                    check_tags_loop exps' form bs (consumed + h) limit nulls len constr
              | Ok _ => Failed
              | _ => Fault
              end
          end
      | Ok _ => Failed
      | _ => Fault
      end
  end.

(** src/asn1/asn1c/ber_decoder.c:54-271 [ber_check_tags].  With tag_mode 1
    tagno starts at -1 (one tag more than td->tags); at step 0 the tag is not
    compared unless tag_mode is 0.  The first branch is the untagged ANY. *)
Definition ber_check_tags (tags : list Z) (mode : Z) (form : option bool) (bs : list Z) : outcome (Z * bool) :=
  if (mode =? 0) && (length tags =? 0)%nat then
    match ber_fetch_tag bs (length bs) with
    | Ok (Got tag_len _) =>
        match bs with
        | [] => Fault
        | b0 :: _ =>
            let constr := constructed_bit b0 in
            match ber_fetch_length constr (skipn tag_len bs) (length bs - tag_len) with
            | Ok (Got len_len len) => Done (tag_len + len_len)%nat (len, constr)
            | Ok _ => Failed
            | _ => Fault
            end
        end
    | Ok _ => Failed
    | _ => Fault
    end
  else if mode =? 1 then check_tags_loop (None :: map Some tags) form bs 0 (-1) 0 0 false
  else match tags with
       | [] => Fault
       | t :: tags' =>
           check_tags_loop ((if mode =? 0 then Some t else None) :: map Some tags') form bs 0 (-1) 0 0 false
       end.

(** ** Primitive types *)

(** src/asn1/asn1c/asn_codecs_prim.c:16-82 [ber_decode_primitive] (INTEGER,
    OBJECT IDENTIFIER). *)
Definition ber_decode_primitive (tags : list Z) (mode : Z) (bs : list Z) : outcome value :=
  match ber_check_tags tags mode (Some false) bs with
  | Done consumed (len, _) =>
      let bs := skipn consumed bs in
      if Z.of_nat (length bs) <? len then Failed
      else if len <? 0 then Fault
      else Done (consumed + Z.to_nat len)%nat (VBytes (firstn (Z.to_nat len) bs))
  | Failed => Failed
  | Fault => Fault
  | Spin => Spin
  end.

(** src/asn1/asn1c/NULL.c:60-97 [NULL_decode_ber]. *)
Definition NULL_decode_ber (tags : list Z) (mode : Z) (bs : list Z) : outcome value :=
  match ber_check_tags tags mode (Some false) bs with
  | Done consumed (len, _) => if negb (len =? 0) then Failed else Done consumed VNull
  | Failed => Failed
  | Fault => Fault
  | Spin => Spin
  end.

(** src/asn1/asn1c/BOOLEAN.c:85-93: the bytes are read until one is not zero. *)
Fixpoint boolean_value (bs : list Z) : Z :=
  match bs with
  | [] => 0
  | b :: bs' => if b =? 0 then boolean_value bs' else b
  end.

(** src/asn1/asn1c/BOOLEAN.c:43-103 [BOOLEAN_decode_ber]. *)
Definition BOOLEAN_decode_ber (tags : list Z) (mode : Z) (bs : list Z) : outcome value :=
  match ber_check_tags tags mode (Some false) bs with
  | Done consumed (len, _) =>
      let bs := skipn consumed bs in
      if Z.of_nat (length bs) <? len then Failed
      else if len <? 0 then Fault
      else Done (consumed + Z.to_nat len)%nat (VBool (boolean_value (firstn (Z.to_nat len) bs)))
  | Failed => Failed
  | Fault => Fault
  | Spin => Spin
  end.

(** ** Strings *)

(** src/asn1/asn1c/OCTET_STRING.c:84-110 [APPEND]: the buffer's size is a power
    of two greater than the contents, and it must be positive as an int. *)
Definition append (acc bs : list Z) : option (list Z) :=
  if Z.of_nat (length (acc ++ bs)) <? 1073741824 then Some (acc ++ bs) else None.

(** src/asn1/asn1c/OCTET_STRING.c:118-127 [struct _stack_el].  cont_level is
    the number of frames below. *)
Record frame : Set := { f_left : Z; f_got : Z; f_nulls : bool }.

(** src/asn1/asn1c/OCTET_STRING.c:329-358: the tag a segment must have. *)
Definition expected_tag (v : variant) (all_tags : list Z) (stack : list frame) (tag : Z) : Z :=
  match v with
  | ANY => tag
  | _ =>
      match stack with
      | [] => tag
      | _ :: below =>
          match nth_error all_tags (length below) with
          | Some t => t
          | None => match all_tags with [] => tag | _ => last all_tags tag end
          end
      end
  end.

(** The variables of the machine: the stack, the bytes from buf_ptr on,
    st->buf, st->bits_unused and consumed_myself. *)
Record machine : Set := {
  k_stack : list frame; k_bs : list Z; k_acc : list Z; k_unused : Z; k_consumed : nat }.

(** One turn of the machine: go on, leave with RC_OK, or another way out. *)
Inductive turn : Type := Next (k : machine) | Leave (r : outcome (list Z * Z)).

(** src/asn1/asn1c/OCTET_STRING.c:265-283: the current segment is complete. *)
Definition string_pop (f : frame) (below : list frame) (k : machine) : turn :=
  match below with
  | [] => Leave (Done (k_consumed k) (k_acc k, k_unused k))
  | p :: below' =>
      if negb (f_left p =? -1) && (f_left p <? f_got f) then Leave Failed
      else Next {| k_stack := {| f_left := if f_left p =? -1 then -1 else f_left p - f_got f;
                                 f_got := f_got p + f_got f; f_nulls := f_nulls p |} :: below';
                   k_bs := k_bs k; k_acc := k_acc k; k_unused := k_unused k; k_consumed := k_consumed k |}
  end.

(** src/asn1/asn1c/OCTET_STRING.c:313-338: an end of contents. *)
Definition string_eoc (v : variant) (mode : Z) (f : frame) (below : list frame) (k : machine) : turn :=
  match (match v with
         | ANY => if negb (mode =? 1) || negb (length below =? 0)%nat then append (k_acc k) [0; 0] else Some (k_acc k)
         | _ => Some (k_acc k)
         end) with
  | None => Leave Failed
  | Some acc =>
      Next {| k_stack := {| f_left := 0; f_got := f_got f + 2; f_nulls := false |} :: below;
              k_bs := skipn 2 (k_bs k); k_acc := acc; k_unused := k_unused k; k_consumed := k_consumed k + 2 |}
  end.

(** src/asn1/asn1c/OCTET_STRING.c:413-447: phase 2, the contents of a
    primitive segment.  In a BIT STRING the first byte is the number of unused
    bits. *)
Definition string_contents (v : variant) (lft : Z) (tlvl : nat) (k : machine) : turn :=
  if lft <? 0 then Leave Fault
  else
    let len := Z.to_nat (Z.min (Z.of_nat (length (k_bs k))) lft) in
    let chunk := firstn len (k_bs k) in
    match (match v, chunk with
           | BIT, u :: chunk' =>
               match append (k_acc k) chunk' with Some a => Some (a, u) | None => None end
           | BIT, [] => Some (k_acc k, k_unused k)
           | _, _ => match append (k_acc k) chunk with Some a => Some (a, k_unused k) | None => None end
           end) with
    | None => Leave Failed
    | Some (acc, unused) =>
        if negb (lft - Z.of_nat len =? 0) then Leave Failed
        else Next {| k_stack := {| f_left := 0; f_got := Z.of_nat tlvl + Z.of_nat len; f_nulls := false |} :: k_stack k;
                     k_bs := skipn len (k_bs k); k_acc := acc; k_unused := unused;
                     k_consumed := k_consumed k + tlvl + len |}
    end.

(** src/asn1/asn1c/OCTET_STRING.c:352-406: a new segment. *)
Definition string_push (v : variant) (mode : Z) (constr : bool) (tlvl : nat) (tlv_len : Z) (k : machine) : turn :=
  if tlv_len + Z.of_nat tlvl <? 0 then Leave Failed
  else
    let indef := tlv_len =? -1 in
    let parent_left := match k_stack k with [] => -1 | p :: _ => f_left p end in
    if negb (parent_left =? -1) && (parent_left <? Z.of_nat tlvl + (if indef then 0 else tlv_len))
    then Leave Failed
    else
      let lft := if negb (parent_left =? -1) && indef then parent_left - Z.of_nat tlvl else tlv_len in
      match (match v with
             | ANY => if negb (mode =? 1) || negb (length (k_stack k) =? 0)%nat
                      then append (k_acc k) (firstn tlvl (k_bs k)) else Some (k_acc k)
             | _ => Some (k_acc k)
             end) with
      | None => Leave Failed
      | Some acc =>
          let bs := skipn tlvl (k_bs k) in
          if constr then
            Next {| k_stack := {| f_left := lft; f_got := Z.of_nat tlvl; f_nulls := indef |} :: k_stack k;
                    k_bs := bs; k_acc := acc; k_unused := k_unused k; k_consumed := k_consumed k + tlvl |}
          else
            string_contents v lft tlvl
              {| k_stack := k_stack k; k_bs := bs; k_acc := acc; k_unused := k_unused k; k_consumed := k_consumed k |}
      end.

(** src/asn1/asn1c/OCTET_STRING.c:250-256: [Left], "even if sel->left == -1". *)
Definition string_window (k : machine) : list Z :=
  match k_stack k with
  | [] => k_bs k
  | f :: _ =>
      if (f_left f <? 0) || (Z.of_nat (length (k_bs k)) <=? f_left f) then k_bs k
      else firstn (Z.to_nat (f_left f)) (k_bs k)
  end.

(** src/asn1/asn1c/OCTET_STRING.c:239-458: one turn of phases 1 and 2, the
    stack machine that reads a constructed string.  The stack is a list, the
    current element first. *)
Definition string_turn (v : variant) (mode : Z) (all_tags : list Z) (k : machine) : turn :=
  match k_stack k with
  | f :: below =>
      if (f_left f <=? 0) && negb (f_nulls f) then string_pop f below k
      else
        let win := string_window k in
        match ber_fetch_tag win (length win) with
        | Ok (Got tl tlv_tag) =>
            match win with
            | [] => Leave Fault
            | b0 :: win' =>
                let constr := constructed_bit b0 in
                match ber_fetch_length constr (skipn tl win) (length win - tl) with
                | Ok (Got ll tlv_len) =>
                    match win' with
                    | [] => Leave Fault
                    | b1 :: _ =>
                        if f_nulls f && (b0 =? 0) && (b1 =? 0) then string_eoc v mode f below k
                        else if negb (tlv_tag =? expected_tag v all_tags (k_stack k) tlv_tag) then Leave Failed
                        else string_push v mode constr (tl + ll) tlv_len k
                    end
                | Ok _ => Leave Failed
                | _ => Leave Fault
                end
            end
        | Ok _ => Leave Failed
        | _ => Leave Fault
        end
  | [] =>
      let win := string_window k in
      match ber_fetch_tag win (length win) with
      | Ok (Got tl tlv_tag) =>
          match win with
          | [] => Leave Fault
          | b0 :: _ =>
              let constr := constructed_bit b0 in
              match ber_fetch_length constr (skipn tl win) (length win - tl) with
              | Ok (Got ll tlv_len) => string_push v mode constr (tl + ll) tlv_len k
              | Ok _ => Leave Failed
              | _ => Leave Fault
              end
          end
      | Ok _ => Leave Failed
      | _ => Leave Fault
      end
  end.

(** The machine runs until it leaves.  As many turns as bytes, and two, are
    enough (proved). *)
Fixpoint string_run (turns : nat) (v : variant) (mode : Z) (all_tags : list Z) (k : machine) : outcome (list Z * Z) :=
  match turns with
  | O => Spin
  | S turns' =>
      match string_turn v mode all_tags k with
      | Next k' => string_run turns' v mode all_tags k'
      | Leave r => r
      end
  end.

(** src/asn1/asn1c/OCTET_STRING.c:464-484: phase 3, the primitive form. *)
Definition string_primitive (v : variant) (left : Z) (bs acc : list Z) (consumed : nat) : outcome (list Z * Z) :=
  if left <? 0 then Fault
  else if Z.of_nat (length bs) <? left then Failed
  else
    let chunk := firstn (Z.to_nat left) bs in
    match v, chunk with
    | BIT, u :: chunk' =>
        match append acc chunk' with
        | None => Failed
        | Some acc => Done (consumed + Z.to_nat left)%nat (acc, u)
        end
    | _, _ =>
        match append acc chunk with
        | None => Failed
        | Some acc => Done (consumed + Z.to_nat left)%nat (acc, 0)
        end
    end.

(** src/asn1/asn1c/OCTET_STRING.c:502-515: the last step of a BIT STRING:
    unused bits are cleared. *)
Definition mask_last (bs : list Z) (unused : Z) : list Z :=
  removelast bs ++ [Z.land (last bs 0) (Z.land (Z.shiftl 255 unused) 255)].

(** src/asn1/asn1c/OCTET_STRING.c:502-523. *)
Definition string_finish (v : variant) (r : outcome (list Z * Z)) : outcome value :=
  match r with
  | Done n (acc, unused) =>
      match v with
      | BIT =>
          if (length acc =? 0)%nat then (if unused =? 0 then Done n (VBits [] 0) else Failed)
          else if (unused <? 0) || (7 <? unused) then Failed
          else Done n (VBits (mask_last acc unused) unused)
      | _ => Done n (VBytes acc)
      end
  | Failed => Failed
  | Fault => Fault
  | Spin => Spin
  end.

(** src/asn1/asn1c/OCTET_STRING.c:173-523 [OCTET_STRING_decode_ber].  Note that
    in the constructed form nothing has been consumed yet when phase 1 starts:
    the stack machine reads the outer headers again. *)
Definition OCTET_STRING_decode_ber (v : variant) (tags all_tags : list Z) (mode : Z) (bs : list Z) : outcome value :=
  match ber_check_tags tags mode None bs with
  | Done consumed (lft, constr) =>
      string_finish v
        (if constr then
           string_run (2 * length bs + 2) v mode all_tags
             {| k_stack := []; k_bs := bs; k_acc := []; k_unused := 0; k_consumed := 0 |}
         else
           match (match v with
                  | ANY => if negb (mode =? 1) then append [] (firstn consumed bs) else Some []
                  | _ => Some []
                  end) with
           | None => Failed
           | Some acc => string_primitive v lft (skipn consumed bs) acc consumed
           end)
  | Failed => Failed
  | Fault => Fault
  | Spin => Spin
  end.

(** ** Constructed types *)

(** The LEFT macro (src/asn1/asn1c/constr_SEQUENCE.c:18-23 and the same in
    constr_SET_OF.c, constr_CHOICE.c): the bytes a member may look at. *)
Definition LEFT (left : Z) (bs : list Z) : list Z :=
  if (left <? 0) || (Z.of_nat (length bs) <=? left) then bs else firstn (Z.to_nat left) bs.

(** ctx->left after the ADVANCE macro. *)
Definition advance (left : Z) (n : nat) : Z := if 0 <=? left then left - Z.of_nat n else left.

(** src/asn1/asn1c/constr_SEQUENCE.c:447-501: phase 3, when nothing but
    end-of-contents octets may follow (no type here is extensible, so the rest
    of the loop is unreachable); [n] is -ctx->left. *)
Fixpoint seq_eocs (n : nat) (bs : list Z) (consumed : nat) : option nat :=
  match n with
  | O => Some consumed
  | S n' =>
      match bs with
      | 0 :: 0 :: bs' => seq_eocs n' bs' (consumed + 2)
      | _ => None
      end
  end.

(** src/asn1/asn1c/constr_SEQUENCE.c:438-506: the end of the members. *)
Definition seq_end (left : Z) (bs : list Z) (consumed : nat) (acc : list (option value)) : outcome value :=
  if left =? 0 then Done consumed (VSeq (rev acc))
  else if 0 <? left then Failed
  else match seq_eocs (Z.to_nat (- left)) bs consumed with
       | None => Failed
       | Some n => Done n (VSeq (rev acc))
       end.

(** What the loop over the members uses of a member: its tag and ATF_ANY_TYPE,
    the number of optional members starting with it, and its decoder. *)
Record field : Type := {
  d_key : option Z * bool; d_optional : nat; d_decode : list Z -> outcome value }.

(** src/asn1/asn1c/constr_SEQUENCE.c:272-296: the linear search of the member
    the tag belongs to, over the next [window] members. *)
Inductive found : Set := Here (n : nat) | Ambiguous | Nowhere.
Fixpoint linear_search (tag : Z) (keys : list (option Z * bool)) (window n : nat) : found :=
  match window, keys with
  | S window', (mtag, any) :: keys' =>
      match mtag with
      | Some t => if tag =? t then Here n else if any then Here n else linear_search tag keys' window' (S n)
      | None => if any then Here n else Ambiguous
      end
  | _, _ => Nowhere
  end.

(** src/asn1/asn1c/constr_SEQUENCE.c:297-334: the search in the tag2el table:
    the last entry for this tag among the members [edx] to [edx_max].
    (bsearch, toff_first and toff_last find the entries for the tag in the
    sorted table; the model goes over the whole table.) *)
Fixpoint table_search (t2e : list (Z * nat)) (tag : Z) (edx edx_max : nat) (best : option nat) : option nat :=
  match t2e with
  | [] => best
  | (t, el) :: t2e' =>
      table_search t2e' tag edx edx_max
        (if (tag =? t) && (edx <=? el)%nat && (el <=? edx_max)%nat then Some el else best)
  end.

(** src/asn1/asn1c/constr_SEQUENCE.c:259-362: the number of members to skip. *)
Definition find_member (t2e : list (Z * nat)) (tag : Z) (edx : nat) (keys : list (option Z * bool)) (optional : nat) : option nat :=
  let '(window, use_bsearch) :=
    if (length keys <? optional + 1)%nat then (length keys, false)
    else if (8 <? optional + 1)%nat then (8%nat, true) else ((optional + 1)%nat, false) in
  let table :=
    match table_search t2e tag edx (edx + optional) None with
    | Some el => Some (el - edx)%nat
    | None => None
    end in
  match linear_search tag keys window 0 with
  | Here n => Some n
  | Nowhere => if use_bsearch then table else None
  | Ambiguous => table
  end.

(** src/asn1/asn1c/constr_SEQUENCE.c:190-436: phase 1, the loop over the
    members.  [sel] counts the members still to skip before one is decoded
    without further ado (microphase 2); [None] is microphase 1. *)
Fixpoint seq_loop (t2e : list (Z * nat)) (ms : list field) (edx : nat) (sel : option nat) (left : Z)
  (bs : list Z) (consumed : nat) (acc : list (option value)) : outcome value :=
  match ms with
  | [] => match sel with None => seq_end left bs consumed acc | Some _ => Fault end
  | m :: ms' =>
      let decode_it :=
        match d_decode m (LEFT left bs) with
        | Done n v =>
            seq_loop t2e ms' (S edx) None (advance left n) (skipn n bs) (consumed + n) (Some v :: acc)
        | r => r
        end in
      let skip_it n := seq_loop t2e ms' (S edx) (Some n) left bs consumed (None :: acc) in
      match sel with
      | Some (S n) => skip_it n
      | Some O => decode_it
      | None =>
          let at_end := (d_optional m =? length ms)%nat in
          let rest := repeat None (length ms) in
          if (left =? 0) && at_end then Done consumed (VSeq (rev acc ++ rest))
          else
            let win := LEFT left bs in
            match ber_fetch_tag win (length win) with
            | Ok (Got _ tlv_tag) =>
                match win with
                | [] => Fault
                | b0 :: win' =>
                    let eoc :=
                      if (left <? 0) && (b0 =? 0) then
                        match win' with
                        | [] => None
                        | b1 :: _ => Some ((b1 =? 0) && at_end)
                        end
                      else Some false in
                    match eoc with
                    | None => Failed
                    | Some true => seq_end left bs consumed (rest ++ acc)
                    | Some false =>
                        match find_member t2e tlv_tag edx (map d_key ms) (d_optional m) with
                        | None => Failed
                        | Some O => decode_it
                        | Some (S n) => skip_it n
                        end
                    end
                end
            | Ok _ => Failed
            | _ => Fault
            end
      end
  end.

(** src/asn1/asn1c/constr_SEQUENCE.c:119-512 [SEQUENCE_decode_ber]. *)
Definition SEQUENCE_decode_ber (tags : list Z) (t2e : list (Z * nat)) (ms : list field) (mode : Z) (bs : list Z) : outcome value :=
  match ber_check_tags tags mode (Some true) bs with
  | Done consumed (lft, _) => seq_loop t2e ms 0 None lft (skipn consumed bs) consumed []
  | Failed => Failed
  | Fault => Fault
  | Spin => Spin
  end.

(** src/asn1/asn1c/constr_SET_OF.c:143-268: the elements, then the end of
    contents octets.  Every element has a byte at least, so that one turn per
    byte and one more are enough (proved). *)
Fixpoint of_loop (turns : nat) (etag : option Z) (dec : list Z -> outcome value) (left : Z)
  (bs : list Z) (consumed : nat) (acc : list value) : outcome value :=
  match turns with
  | O => Spin
  | S turns' =>
      if left =? 0 then Done consumed (VOf (rev acc))
      else
        let win := LEFT left bs in
        match ber_fetch_tag win (length win) with
        | Ok (Got _ tlv_tag) =>
            match win with
            | [] => Fault
            | b0 :: win' =>
                let eoc :=
                  if (left <? 0) && (b0 =? 0) then
                    match win' with
                    | [] => None
                    | b1 :: _ => Some (b1 =? 0)
                    end
                  else Some false in
                match eoc with
                | None => Failed
                | Some true =>
                    match seq_eocs (Z.to_nat (- left)) bs consumed with
                    | None => Failed
                    | Some n => Done n (VOf (rev acc))
                    end
                | Some false =>
                    if match etag with None => false | Some t => negb (tlv_tag =? t) end then Failed
                    else
                      match dec win with
                      | Done n v =>
                          of_loop turns' etag dec (advance left n) (skipn n bs) (consumed + n) (v :: acc)
                      | r => r
                      end
                end
            end
        | Ok _ => Failed
        | _ => Fault
        end
  end.

(** src/asn1/asn1c/constr_SET_OF.c:77-275 [SET_OF_decode_ber], also called for
    SEQUENCE OF (src/asn1/asn1c/constr_SEQUENCE_OF.h:29-31). *)
Definition SET_OF_decode_ber (tags : list Z) (etag : option Z) (dec : list Z -> outcome value) (mode : Z) (bs : list Z) : outcome value :=
  match ber_check_tags tags mode (Some true) bs with
  | Done consumed (lft, _) => of_loop (S (length bs)) etag dec lft (skipn consumed bs) consumed []
  | Failed => Failed
  | Fault => Fault
  | Spin => Spin
  end.

(** src/asn1/asn1c/constr_CHOICE.c:304-337: the end-of-contents octets of an
    explicitly tagged CHOICE.  When the first byte is zero and the second is
    not, nothing changes and the loop goes on ("UNREACHABLE"). *)
Fixpoint choice_eocs (turns : nat) (n : nat) (bs : list Z) (consumed : nat) (v : value) : outcome value :=
  match turns with
  | O => Spin
  | S turns' =>
      match n with
      | O => Done consumed v
      | S n' =>
          match ber_fetch_tag bs (length bs) with
          | Ok (Got _ _) =>
              match bs with
              | [] => Fault
              | b0 :: bs' =>
                  if b0 =? 0 then
                    match bs' with
                    | [] => Failed
                    | b1 :: bs'' =>
                        if b1 =? 0 then choice_eocs turns' n' bs'' (consumed + 2) v
                        else choice_eocs turns' n bs consumed v
                    end
                  else Failed
              end
          | Ok _ => Failed
          | _ => Fault
          end
      end
  end.

(** bsearch in a CHOICE's table (src/asn1/asn1c/constr_CHOICE.c:201-204). *)
Fixpoint choice_search (t2e : list (Z * nat)) (tag : Z) : option nat :=
  match t2e with
  | [] => None
  | (t, el) :: t2e' => if tag =? t then Some el else choice_search t2e' tag
  end.

(** src/asn1/asn1c/constr_CHOICE.c:110-366 [CHOICE_decode_ber]. *)
Definition CHOICE_decode_ber (turns : nat) (tags : list Z) (t2e : list (Z * nat)) (ms : list field) (mode : Z) (bs : list Z) : outcome value :=
  let tagged := negb (mode =? 0) || negb (length tags =? 0)%nat in
  match (if tagged then ber_check_tags tags mode None bs else Done 0%nat (-1, false)) with
  | Done consumed (lft, _) =>
      let bs := skipn consumed bs in
      let win := LEFT lft bs in
      match ber_fetch_tag win (length win) with
      | Ok (Got _ tlv_tag) =>
          match choice_search t2e tlv_tag with
          | None => Failed
          | Some el =>
              match nth_error ms el with
              | None => Fault
              | Some m =>
                  match d_decode m win with
                  | Done n v =>
                      let lft := advance lft n in
                      if 0 <? lft then Failed
                      else if (lft =? -1) && negb tagged then Done (consumed + n)%nat (VChoice el v)
                      else choice_eocs turns (Z.to_nat (- lft)) (skipn n bs) (consumed + n)%nat (VChoice el v)
                  | r => r
                  end
              end
          end
      | Ok _ => Failed
      | _ => Fault
      end
  | Failed => Failed
  | Fault => Fault
  | Spin => Spin
  end.

(** ** The decoder of a type *)

(** td->op->ber_decoder, by type; [turns] bounds the loop of an explicitly
    tagged CHOICE, the only one that may not end. *)
Fixpoint decode (turns : nat) (t : ty) (mode : Z) (bs : list Z) {struct t} : outcome value :=
  match t with
  | TPrim tags => ber_decode_primitive tags mode bs
  | TNull tags => NULL_decode_ber tags mode bs
  | TBool tags => BOOLEAN_decode_ber tags mode bs
  | TString v tags all_tags => OCTET_STRING_decode_ber v tags all_tags mode bs
  | TSeq tags t2e ms =>
      SEQUENCE_decode_ber tags t2e
        (map (fun m => match m with
                       | Member tag md opt any t' =>
                           {| d_key := (tag, any); d_optional := opt; d_decode := decode turns t' md |}
                       end) ms) mode bs
  | TOf tags etag elem => SET_OF_decode_ber tags etag (decode turns elem 0) mode bs
  | TChoice tags t2e ms =>
      CHOICE_decode_ber turns tags t2e
        (map (fun m => match m with
                       | Member tag md opt any t' =>
                           {| d_key := (tag, any); d_optional := opt; d_decode := decode turns t' md |}
                       end) ms) mode bs
  end.

(** src/asn1/asn1c/ber_decoder.c:34-49 [ber_decode]: tag_mode 0. *)
Definition ber_decode (turns : nat) (t : ty) (bs : list Z) : outcome value := decode turns t 0 bs.
