(** Model of src/data_structure/path_builder.c and of src/types/uri.c.

    C strings are lists of bytes without their NUL; a buffer that is read
    through a pointer is given with its NUL (the bytes that can be read).
    Memory obtained from malloc()/realloc() holds an arbitrary byte [J]
    wherever it was not written.  Lengths are natural numbers: size_t overflow
    (strings of 2^64 bytes) and a failing malloc() (the process ends, see
    src/alloc.c) are not modelled.  Logging is not modelled; pr_crit() is [UB]. *)
From Coq Require Import String.
From Verif Require Import Base CString CLib.
Notation length := List.length.

(** src/data_structure/path_builder.h:17-21 [struct path_builder]; the capacity
    is the length of the memory block. *)
Record pbuilder := { pb_mem : list Z; pb_len : nat }.
Definition pb_capacity (pb : pbuilder) : nat := length (pb_mem pb).

(** Writing [bs] at offset [i] of a memory block; out of bounds is [UB]. *)
Definition store (mem : list Z) (i : nat) (bs : list Z) : res (list Z) :=
  if Nat.leb (i + length bs) (length mem)
  then Ok (firstn i mem ++ bs ++ skipn (i + length bs) mem) else UB.
(** Reading [n] bytes of what can be read through a pointer. *)
Definition load (src : list Z) (n : nat) : res (list Z) :=
  if Nat.leb n (length src) then Ok (firstn n src) else UB.

(** src/data_structure/path_builder.c:12-15. *)
Definition INITIAL_CAPACITY : nat := 128.
Definition MAX_CAPACITY : Z := 4096.

Section Junk.
  Variable J : Z.

  (** src/data_structure/path_builder.c:17-24 [pb_init]. *)
  Definition pb_init : pbuilder :=
    {| pb_mem := 0 :: repeat J (INITIAL_CAPACITY - 1); pb_len := 0 |}.

  (** src/data_structure/path_builder.c:61-63: the doubling loop.  [None]: it
      did not end within [fuel] rounds. *)
  Fixpoint grow_capacity (fuel cap total : nat) : option nat :=
    match fuel with
    | O => None
    | S f => let cap := (2 * cap)%nat in
             if Nat.ltb cap total then grow_capacity f cap total else Some cap
    end.

  (** src/data_structure/path_builder.c:52-67 [pb_grow]. *)
  Definition pb_grow (pb : pbuilder) (total_len : nat) : res pbuilder :=
    if MAX_CAPACITY <? Z.of_nat total_len then Err ENOSPC
    else match grow_capacity 64 (pb_capacity pb) total_len with
         | None => UB
         | Some cap => Ok {| pb_mem := pb_mem pb ++ repeat J (cap - pb_capacity pb); pb_len := pb_len pb |}
         end.

  (** src/data_structure/path_builder.c:69-101 [pb_appendn].  Note that with a
      slash, the memcpy copies one byte more than the addend has (line 90). *)
  Definition pb_appendn (pb : pbuilder) (addend : list Z) (addlen : nat) : res pbuilder :=
    match addlen with
    | O => Ok pb
    | _ =>
        let add_slash := negb (Nat.eqb (pb_len pb) 0) in
        let addlen := if add_slash then S addlen else addlen in
        let total_len := (pb_len pb + addlen + 1)%nat in
        bind (if Nat.ltb (pb_capacity pb) total_len then pb_grow pb total_len else Ok pb) (fun pb =>
        bind (load addend addlen) (fun bytes =>
        bind (if add_slash
              then bind (store (pb_mem pb) (pb_len pb) [47]) (fun m => store m (pb_len pb + 1) bytes)
              else store (pb_mem pb) (pb_len pb) bytes) (fun m =>
        let len := (pb_len pb + addlen)%nat in
        bind (store m len [0]) (fun m => Ok {| pb_mem := m; pb_len := len |}))))
    end.

  (** src/data_structure/path_builder.c:103-107 [pb_append]; [None] is NULL. *)
  Definition pb_append (pb : pbuilder) (addend : option (list Z)) : res pbuilder :=
    match addend with
    | None => Ok pb
    | Some s => pb_appendn pb (s ++ [0]) (length s)
    end.

  (** printf("%X"): upper case hexadecimal digits without leading zeros.
      [fuel]: 8 digits. *)
  Definition hex_digit (d : Z) : Z := if d <? 10 then 48 + d else 55 + d.
  Fixpoint hex_digits (fuel : nat) (n : Z) (acc : list Z) : list Z :=
    match fuel with
    | O => acc
    | S f => let acc := hex_digit (n mod 16) :: acc in
             if n / 16 =? 0 then acc else hex_digits f (n / 16) acc
    end.
  (** src/data_structure/path_builder.c:109-126 [pb_append_u32]; [num] is a
      uint32_t. *)
  Definition pb_append_u32 (pb : pbuilder) (num : Z) : res pbuilder :=
    let s := hex_digits 8 num [] in
    pb_appendn pb (s ++ [0]) (length s).

  (** src/data_structure/path_builder.c:140-146: position of the last slash at
      [i] or before, but not at 0. *)
  Fixpoint last_slash (mem : list Z) (i : nat) : option nat :=
    match i with
    | O => None
    | S k => match nth_error mem i with
             | Some 47 => Some i
             | _ => last_slash mem k
             end
    end.
  (** src/data_structure/path_builder.c:129-156 [pb_pop].  (When len is at most
      1, the loop does not run: i starts at len - 1.) *)
  Definition pb_pop (pb : pbuilder) (fatal : bool) : res pbuilder :=
    let first := match pb_mem pb with c :: _ => c | [] => 0 end in
    if Nat.eqb (pb_len pb) 0 || (Nat.eqb (pb_len pb) 1 && (first =? 47))
    then if fatal then UB else Err EINVAL
    else match last_slash (pb_mem pb) (pb_len pb - 1) with
         | Some i => bind (store (pb_mem pb) i [0]) (fun m => Ok {| pb_mem := m; pb_len := i |})
         | None => if first =? 47
                   then bind (store (pb_mem pb) 1 [0]) (fun m => Ok {| pb_mem := m; pb_len := 1 |})
                   else bind (store (pb_mem pb) 0 [0]) (fun m => Ok {| pb_mem := m; pb_len := 0 |})
         end.

  (** src/data_structure/path_builder.c:158-169 [reverse_string] on the [n]
      bytes at [i]: mirrors them (the swap loop itself is not modelled). *)
  Definition reverse_string (mem : list Z) (i n : nat) : list Z :=
    firstn i mem ++ rev (firstn n (skipn i mem)) ++ skipn (i + n) mem.
  (** src/data_structure/path_builder.c:179-187: the loop of [pb_reverse]. *)
  Fixpoint reverse_loop (fuel : nat) (len : nat) (mem : list Z) (min max : nat) : list Z * nat :=
    match fuel with
    | O => (mem, min)
    | S f =>
        if Nat.ltb max len then
          match nth_error mem max with
          | Some 47 => reverse_loop f len (reverse_string mem min (max - min)) (max + 1) (max + 2)
          | _ => reverse_loop f len mem min (max + 1)
          end
        else (mem, min)
    end.
  (** src/data_structure/path_builder.c:172-189 [pb_reverse]. *)
  Definition pb_reverse (pb : pbuilder) : pbuilder :=
    let m := reverse_string (pb_mem pb) 0 (pb_len pb) in
    let '(m, min) := reverse_loop (pb_len pb) (pb_len pb) m 0 1 in
    {| pb_mem := reverse_string m min (pb_len pb - min); pb_len := pb_len pb |}.

  (** What a caller sees: the C string at the start of the block. *)
  Fixpoint c_string (mem : list Z) : option (list Z) :=
    match mem with
    | [] => None
    | c :: t => if c =? 0 then Some [] else option_map (cons c) (c_string t)
    end.
  Definition pb_string (pb : pbuilder) : res (list Z) :=
    match c_string (pb_mem pb) with Some s => Ok s | None => UB end.

  Section Config.
    (** config_get_local_repository(). *)
    Variable repository : list Z.

    (** src/data_structure/path_builder.c:26-50 [pb_init_cache]. *)
    Definition pb_init_cache (tal subdir : option (list Z)) : res pbuilder :=
      bind (pb_append pb_init (Some repository)) (fun pb =>
      bind (match tal with Some _ => pb_append pb tal | None => Ok pb end) (fun pb =>
      pb_append pb subdir)).

    (** src/types/uri.c:71-103 [validate_url_character]; char is signed on the
        platforms considered, and 0x80..0xFF are refused either way. *)
    Definition validate_url_character (c : Z) : bool := (32 <=? c) && (c <=? 126).
    (** src/types/uri.c:109-127 [str2global]. *)
    Definition str2global (str : list Z) : res (list Z) :=
      if forallb validate_url_character str then Ok str else Err EINVAL.

    (** src/types/uri.c:129-137 [is_valid_mft_file_chara]. *)
    Definition is_valid_mft_file_chara (c : Z) : bool :=
      ((97 <=? c) && (c <=? 122)) || ((65 <=? c) && (c <=? 90)) || ((48 <=? c) && (c <=? 57))
      || (c =? 45) || (c =? 95).
    (** src/types/uri.c:152-157: the loop, from index [i]. *)
    Fixpoint mft_chars (dot i : nat) (s : list Z) : bool :=
      match s with
      | [] => true
      | c :: t => if negb (Nat.eqb i dot) && negb (is_valid_mft_file_chara c) then false
                  else mft_chars dot (S i) t
      end.
    (** src/types/uri.c:140-164 [validate_mft_file]. *)
    Definition validate_mft_file (ia5 : list Z) : res unit :=
      if Nat.ltb (length ia5) 5 then Err EINVAL
      else let dot := (length ia5 - 4)%nat in
           match nth_error ia5 dot with
           | None => UB
           | Some c => if negb (c =? 46) then Err EINVAL
                       else if mft_chars dot 0 ia5 then Ok tt else Err EINVAL
           end.
    (** strrchr(s, c) + 1 - s; [None]: absent. *)
    Fixpoint strrchr_end (c : Z) (s : list Z) : option nat :=
      match s with
      | [] => None
      | x :: t => match strrchr_end c t with
                  | Some n => Some (S n)
                  | None => if x =? c then Some 1%nat else None
                  end
      end.
    (** src/types/uri.c:175-207 [ia5str2global]. *)
    Definition ia5str2global (mft ia5 : list Z) : res (list Z) :=
      bind (validate_mft_file ia5) (fun _ =>
      match strrchr_end 47 mft with
      | None => Err EINVAL
      | Some dir_len => Ok (firstn dir_len mft ++ ia5)
      end).

    (** src/types/uri.c:209-229 [struct path_parser], [path_next].  A parser is
        the text after [slash] ([None]: slash is NULL). *)
    Fixpoint index_of (c : Z) (s : list Z) : option nat :=
      match s with
      | [] => None
      | x :: t => if x =? c then Some O else option_map S (index_of c t)
      end.
    Definition path_next (slash : option (list Z)) : option (list Z * nat * option (list Z)) :=
      match slash with
      | None => None
      | Some token =>
          let '(len, slash') := match index_of 47 token with
                                | Some i => (i, Some (skipn (S i) token))
                                | None => (length token, None)
                                end in
          match token with [] => None | _ => Some (token, len, slash') end
      end.
    (** src/types/uri.c:231-243 [path_is_dot], [path_is_dotdots]. *)
    Definition path_is_dot (token : list Z) (len : nat) : bool :=
      Nat.eqb len 1 && (nth 0 token 0 =? 46).
    Definition path_is_dotdots (token : list Z) (len : nat) : bool :=
      Nat.eqb len 2 && (nth 0 token 0 =? 46) && (nth 1 token 0 =? 46).

    (** src/types/uri.c:284-298: the loop.  [fuel]: the length of the text. *)
    Fixpoint guri_loop (fuel : nat) (pb : pbuilder) (dot_dot_limit : nat) (slash : option (list Z)) : res pbuilder :=
      match fuel with
      | O => UB
      | S f =>
          match path_next slash with
          | None => Ok pb
          | Some (token, len, slash') =>
              if path_is_dotdots token len then
                bind (pb_pop pb false) (fun pb =>
                if Nat.ltb (pb_len pb) dot_dot_limit then Err EINVAL
                else guri_loop f pb dot_dot_limit slash')
              else if negb (path_is_dot token len) then
                bind (pb_appendn pb (token ++ [0]) len) (fun pb => guri_loop f pb dot_dot_limit slash')
              else guri_loop f pb dot_dot_limit slash'
          end
      end.

    (** src/common.c:11-15 [str_starts_with]. *)
    Definition str_starts_with (str prefix : list Z) : bool :=
      list_eqb Z.eqb (firstn (length prefix) str) prefix.

    (** src/types/uri.c:245-301 [append_guri]. *)
    Definition append_guri (pb : pbuilder) (guri gprefix : list Z) (err : errcode) (skip_schema : bool) : res pbuilder :=
      if negb (str_starts_with guri gprefix) then Err err
      else
        bind (if negb skip_schema then pb_appendn pb (guri ++ [0]) 5 else Ok pb) (fun pb =>
        match path_next (Some (skipn 8 guri)) with
        | None => Err EINVAL
        | Some (token, len, slash) =>
            if path_is_dot token len then Err EINVAL
            else if path_is_dotdots token len then Err EINVAL
            else bind (pb_appendn pb (token ++ [0]) len) (fun pb =>
                 guri_loop (S (S (length guri))) pb (pb_len pb) slash)
        end).

    Definition RSYNC_PREFIX : list Z := cstr "rsync://".
    Definition HTTPS_PREFIX : list Z := cstr "https://".
    (** src/types/uri.h:8-18 [enum uri_type]. *)
    Inductive uri_type := UT_RSYNC | UT_HTTPS | UT_CAGED.
    (** src/types/uri.c:23-64 [struct rpki_uri] (without the reference count). *)
    Record rpki_uri := { u_global : list Z; u_local : list Z; u_type : uri_type }.

    (** src/types/uri.c:303-317 [get_rrdp_workspace]. *)
    Definition get_rrdp_workspace (tal : option (list Z)) (notif : list Z) : res pbuilder :=
      bind (pb_init_cache tal (Some (cstr "rrdp"))) (fun pb =>
      append_guri pb notif HTTPS_PREFIX (EOTHER 1) true).
    (** src/types/uri.c:322-340 [map_simple]. *)
    Definition map_simple (global : list Z) (tal : option (list Z)) (gprefix : list Z) (err : errcode) : res (list Z) :=
      bind (pb_init_cache tal None) (fun pb =>
      bind (append_guri pb global gprefix err false) pb_string).
    (** src/types/uri.c:346-367 [map_caged]; [notif]: the notification's global
        URI. *)
    Definition map_caged (global : list Z) (tal : option (list Z)) (notif : list Z) : res (list Z) :=
      bind (get_rrdp_workspace tal notif) (fun pb =>
      match global with
      | [] => pb_string pb
      | _ => bind (append_guri pb global RSYNC_PREFIX ENOTRSYNC true) pb_string
      end).
    (** src/types/uri.c:369-383 [autocomplete_local]; ENOTHTTPS is EOTHER 1. *)
    Definition autocomplete_local (global : list Z) (t : uri_type) (tal : option (list Z)) (notif : option (list Z))
      : res (list Z) :=
      match t with
      | UT_RSYNC => map_simple global tal RSYNC_PREFIX ENOTRSYNC
      | UT_HTTPS => map_simple global tal HTTPS_PREFIX (EOTHER 1)
      | UT_CAGED => match notif with None => UB | Some n => map_caged global tal n end
      end.
    (** src/types/uri.c:389-418 [__uri_create]. *)
    Definition uri_create (tal : option (list Z)) (t : uri_type) (notif : option (list Z)) (guri : list Z)
      : res rpki_uri :=
      bind (str2global guri) (fun g =>
      bind (autocomplete_local g t tal notif) (fun l =>
      Ok {| u_global := g; u_local := l; u_type := t |})).
    (** src/types/uri.c:424-452 [uri_create_mft]. *)
    Definition uri_create_mft (tal : option (list Z)) (notif : option (list Z)) (mft : rpki_uri) (ia5 : list Z)
      : res rpki_uri :=
      bind (ia5str2global (u_global mft) ia5) (fun g =>
      let t := match notif with None => UT_RSYNC | Some _ => UT_CAGED end in
      bind (autocomplete_local g t tal notif) (fun l =>
      Ok {| u_global := g; u_local := l; u_type := t |})).
  End Config.
End Junk.
