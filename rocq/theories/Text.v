(** Small pieces of text: tokens, base64url, numbers.

    Models src/str_token.c, src/crypto/base64.c (around OpenSSL's base64),
    src/config/uint.c and the command-line half of src/config/string_array.c. *)
From Coq Require Import String.
From Verif Require Import Base CString CLib PathBuilder.
Notation length := List.length.

(** ** Tokens *)

(** src/str_token.h:14-27 [struct string_tokenizer].  [str]: what can be read
    through the pointer, which might be more than the [str_len] bytes of the string. *)
Record tokenizer := { tk_str : list Z; tk_len : nat; tk_sep : Z; tk_start : nat; tk_end : nat }.
Definition set_token (t : tokenizer) (s e : nat) : tokenizer :=
  {| tk_str := tk_str t; tk_len := tk_len t; tk_sep := tk_sep t; tk_start := s; tk_end := e |}.

(** Reading a byte. *)
Definition peek (str : list Z) (i : nat) : res Z := match nth_error str i with Some c => Ok c | None => UB end.

(** src/str_token.c:65-74 [string_tokenizer_init]. *)
Definition string_tokenizer_init (str : list Z) (str_len : nat) (separator : Z) : tokenizer :=
  {| tk_str := str; tk_len := str_len; tk_sep := separator; tk_start := 0; tk_end := 0 |}.

(** src/str_token.c:88-95: the loop of [string_tokenizer_next] that skips separators
    ([None]: the string's end was reached). *)
Fixpoint skip_sep (fuel : nat) (t : tokenizer) (e : nat) : res (option nat) :=
  match fuel with
  | O => UB
  | S fuel =>
      bind (peek (tk_str t) e) (fun c =>
      if c =? tk_sep t
      then if (e + 1 =? tk_len t)%nat then Ok None else skip_sep fuel t (e + 1)
      else Ok (Some e))
  end.
(** src/str_token.c:99-101: the loop that looks for the token's end. *)
Fixpoint find_sep (fuel : nat) (t : tokenizer) (e : nat) : res nat :=
  match fuel with
  | O => UB
  | S fuel =>
      if (e <? tk_len t)%nat then
        bind (peek (tk_str t) e) (fun c => if c =? tk_sep t then Ok e else find_sep fuel t (e + 1))
      else Ok e
  end.
(** src/str_token.c:79-105 [string_tokenizer_next]: whether there was a token. *)
Definition string_tokenizer_next (t : tokenizer) : res (bool * tokenizer) :=
  if (tk_end t =? tk_len t)%nat then Ok (false, t)
  else bind (skip_sep (S (tk_len t)) t (tk_end t)) (fun r =>
       match r with
       | None => Ok (false, set_token t (tk_len t) (tk_len t))
       | Some s => bind (find_sep (S (tk_len t)) t s) (fun e => Ok (true, set_token t s e))
       end).

(** src/str_token.c:110-118 [token_equals]. *)
Definition token_equals (t1 t2 : tokenizer) : res bool :=
  if (tk_end t1 - tk_start t1 =? tk_end t2 - tk_start t2)%nat then
    bind (load (skipn (tk_start t1) (tk_str t1)) (tk_end t1 - tk_start t1)) (fun a =>
    bind (load (skipn (tk_start t2) (tk_str t2)) (tk_end t1 - tk_start t1)) (fun b => Ok (list_eqb Z.eqb a b)))
  else Ok false.
(** src/str_token.c:120-125 [token_read]. *)
Definition token_read (t : tokenizer) : res (list Z) := load (skipn (tk_start t) (tk_str t)) (tk_end t - tk_start t).

(** src/str_token.c:127-141 [token_count]. *)
Fixpoint count_loop (fuel : nat) (t : tokenizer) (count : nat) : res nat :=
  match fuel with
  | O => UB
  | S fuel => bind (string_tokenizer_next t) (fun '(more, t) => if more then count_loop fuel t (count + 1) else Ok count)
  end.
Definition token_count (t : tokenizer) : res nat :=
  count_loop (S (tk_len t)) (string_tokenizer_init (tk_str t) (tk_len t) (tk_sep t)) 0.

(** src/config/string_array.c:135-136: the loop of [string_array_parse_argv];
    [array] has [None] where nothing was written yet. *)
Fixpoint fill_loop (fuel : nat) (t : tokenizer) (i : nat) (array : list (option (list Z))) : res (list (option (list Z))) :=
  match fuel with
  | O => UB
  | S fuel =>
      bind (string_tokenizer_next t) (fun '(more, t) =>
      if more then
        bind (token_read t) (fun s =>
        if (i <? length array)%nat then fill_loop fuel t (i + 1) (upd array i (Some s)) else UB)
      else Ok array)
  end.
(** src/config/string_array.c:112-139 [string_array_parse_argv]. *)
Definition string_array_parse_argv (max : Z) (str : list Z) : res (list (option (list Z))) :=
  let t := string_tokenizer_init (str ++ [0]) (length str) 44 in
  bind (token_count t) (fun len =>
  if (0 <? max) && (max <? Z.of_nat len) then Err EINVAL
  else fill_loop (S (length str)) t 0 (repeat None len)).

(** ** base64url *)
Section Base64.
  (** OpenSSL's base64, in both directions, without line breaks.  The decoder yields
      [None] if it queues an error. *)
  Variable encode : list Z -> list Z.
  Variable decode : list Z -> option (list Z).

  Definition to_std (c : Z) : Z := if c =? 45 then 43 else if c =? 95 then 47 else c.
  Definition to_url (c : Z) : Z := if c =? 43 then 45 else if c =? 47 then 95 else c.

  (** src/crypto/base64.c:119-181 [base64url_decode]. *)
  Definition base64url_decode (str : list Z) : option (list Z) :=
    let encoded_len := length str in
    let pad := (if 0 <? encoded_len mod 4 then 4 - encoded_len mod 4 else 0)%nat in
    let str_copy := map to_std str ++ repeat 61 pad in
    match decode str_copy with
    | None => None
    | Some [] => None
    | Some result => Some result
    end.

  (** strchr(): where the character is; the string must have an end. *)
  Fixpoint strchr (mem : list Z) (c : Z) : res (option nat) :=
    match mem with
    | [] => UB
    | x :: mem => if x =? c then Ok (Some 0%nat) else if x =? 0 then Ok None
                  else bind (strchr mem c) (fun r => Ok (option_map S r))
    end.
  (** src/crypto/base64.c:183-212 [to_base64url].  [base]: what can be read through
      the pointer. *)
  Definition to_base64url (base : list Z) (base_len : nat) : res (list Z) :=
    bind (strchr base 61) (fun pad =>
    let len := match pad with None => base_len | Some p => p end in
    bind (load base len) (fun tmp => Ok (map to_url tmp))).
  (** src/crypto/base64.c:222-254 [base64url_encode]; [after]: what's in the memory
      that follows the text OpenSSL wrote, which isn't ended by a NUL. *)
  Definition base64url_encode (after : list Z) (data : list Z) : res (list Z) :=
    to_base64url (encode data ++ after) (length (encode data)).
End Base64.

(** ** Numbers *)
Section Uint.
  (** The option's bounds, both of them unsigned int. *)
  Variable min max : Z.

  (** src/config/uint.c:14-46 [parse_argv_uint] ([str] not NULL). *)
  Definition parse_argv_uint (str : list Z) : res Z :=
    match str with
    | [] => Err EINVAL
    | _ =>
        let '(parsed, erange, tmp) := strtoul str in
        if erange then Err EINVAL
        else match tmp with
             | _ :: _ => Err EINVAL
             | [] => if (parsed <? min) || (max <? parsed) then Err EINVAL else Ok (wrap32 parsed)
             end
    end.
  (** src/config/uint.c:48-67 [parse_json_uint]; the value is [None] if it's no
      integer, otherwise a 64-bit signed integer. *)
  Definition parse_json_uint (value : option Z) : res Z :=
    match value with
    | None => Err EINVAL
    | Some v => if (v <? min) || (max <? v) then Err EINVAL else Ok (wrap32 v)
    end.
End Uint.
