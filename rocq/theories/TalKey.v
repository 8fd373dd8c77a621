(** A TAL's key: read_spki() of src/object/tal.c. *)
From Coq Require Import String.
From Verif Require Import Base CString PathBuilder Types Tal.
From Verif Require Publish.
Notation length := List.length.

(** What a function that takes a string makes of memory. *)
Fixpoint string_at (mem : list Z) : res (list Z) :=
  match mem with
  | [] => UB
  | c :: mem => if c =? 0 then Ok [] else bind (string_at mem) (fun s => Ok (c :: s))
  end.

Section Key.
  Variable J : Z.
  Variable repository : list Z.
  Variable tal : list Z.
  (** libcrypto. *)
  Variable L : Publish.crypto.

  (** src/object/tal.c:227-265 [read_spki].  [f]: what's left of the file.  [alloc],
      [size]: what's left of it according to stat(), when [get_spki_alloc_size]
      (src/object/tal.c:130-134) and [base64_sanitize] look; not less than 0, otherwise
      pmalloc() ends the program.  [Ok key]: the first spki_len bytes of spki. *)
  Definition read_spki (alloc size : nat) (f : list Z) : res (list Z) :=
    let alloc_size := Publish.EVP_DECODE_LENGTH alloc in
    bind (base64_sanitize J size f) (fun mem =>
    if negb (Publish.cr_mem L) then Err EINVAL                   (* BIO_new_mem_buf() *)
    else
      bind (string_at mem) (fun tmp =>                           (* its length is -1: strlen() *)
      bind (Publish.base64_decode (Publish.cr_push L) (Publish.cr_decode L tmp) (Publish.pmalloc alloc_size) alloc_size) (fun r =>
      match r with
      | None => Err EINVAL
      | Some (spki, spki_len) => Publish.bytes spki spki_len
      end))).
  (** src/object/tal.c:270-306 [tal_init], of a file that doesn't change: its URIs
      and key. *)
  Definition tal_read (f : list Z) : res (list rpki_uri * list Z) :=
    bind (read_uris J repository tal f) (fun '(uris, body) =>
    bind (read_spki (length body) (length body) body) (fun key => Ok (uris, key))).
End Key.
