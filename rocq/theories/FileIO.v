(** Files that are read and hashed: src/file.c [file_open], [file_load] and src/crypto/hash.c.

    The operating system's answers are arguments, so that other processes may change the file
    meanwhile: [kernel k] is the answer to the k-th read() of the open file.  stdio is modelled as what
    it has read but not given yet.  The digests of libcrypto are functions of the bytes they were
    given; malloc() works (pmalloc() ends the process otherwise). *)
From Coq Require Import ZArith List Bool Lia.
From Verif Require Import Base Manifest.
Import ListNotations.
Open Scope list_scope.
Open Scope Z_scope.

Definition c_EINVAL : Z := 22.

(** ** stdio *)

(** read(): the errno, or some bytes; none at the end of the file. *)
Definition answers := nat -> Z + list Z.
(** A FILE that's read. *)
Record stream : Type := { pending : list Z; reads : nat; at_eof : bool; in_error : bool }.
Definition fresh : stream := {| pending := []; reads := 0; at_eof := false; in_error := false |}.
(** fread(3): reads until there's enough ([turns]: every read gets a byte at least). *)
Fixpoint fill (kernel : answers) (turns n : nat) (f : stream) : stream :=
  if (n <=? length (pending f))%nat then f
  else match turns with
       | O => f
       | S turns =>
           match kernel (reads f) with
           | inl _ => {| pending := pending f; reads := S (reads f); at_eof := at_eof f; in_error := true |}
           | inr [] => {| pending := pending f; reads := S (reads f); at_eof := true; in_error := in_error f |}
           | inr b => fill kernel turns n {| pending := pending f ++ b; reads := S (reads f); at_eof := at_eof f; in_error := in_error f |}
           end
       end.
Definition fread (kernel : answers) (n : nat) (f : stream) : list Z * stream :=
  let f := fill kernel n n f in
  (firstn n (pending f), {| pending := skipn n (pending f); reads := reads f; at_eof := at_eof f; in_error := in_error f |}).

(** ** src/file.c *)

(** struct stat. *)
Record stat : Type := { st_isreg : bool; st_size : nat; st_blksize : nat }.
(** What there is at a path: fopen()'s errno; or the answers to fstat() and read(). *)
Inductive path_state : Type :=
| NotOpened (errno : Z)
| Opened (st : Z + stat) (kernel : answers).
(** The resources that are taken and given back. *)
Inductive event : Set := Fopen | Fclose | Malloc | Free.

(** src/file.c:9-39 [file_open].  The first of the results is the function's. *)
Definition file_open (p : path_state) : Z * option (stat * answers) * list event :=
  match p with
  | NotOpened e => (e, None, [])
  | Opened (inl e) _ => (e, None, [Fopen; Fclose])
  | Opened (inr st) kernel =>
      if negb (st_isreg st) then (- c_EINVAL, None, [Fopen; Fclose])
      else (0, Some (st, kernel), [Fopen])
  end.
(** src/file.c:67-114 [file_load].  [ferror]: what ferror() returns of a FILE that has failed. *)
Definition file_load (ferror : Z) (p : path_state) : Z * option (list Z) * list event :=
  match file_open p with
  | (0, Some (st, kernel), ev) =>
      let '(buffer, f) := fread kernel (st_size st) fresh in
      if (length buffer <? st_size st)%nat
      then (let error := if in_error f then ferror else 0 in
            if negb (error =? 0) then (error, None, ev ++ [Malloc; Free; Fclose])
            else (- c_EINVAL, None, ev ++ [Malloc; Free; Fclose]))
      else (0, Some buffer, ev ++ [Malloc; Fclose])
  | (e, _, ev) => (e, None, ev)
  end.

(** ** src/crypto/hash.c *)

(** EVP_get_digestbyname(), EVP_DigestInit_ex(), the calls to EVP_DigestUpdate(), EVP_DigestFinal_ex():
    whether they work. *)
Record evp : Type := { known : bool; init_works : bool; update_works : nat -> bool; final_works : bool }.

(** src/crypto/hash.c:24-30 [hash_matches]. *)
Definition hash_matches (expected actual : list Z) : bool :=
  (length expected =? length actual)%nat && list_eqb Z.eqb expected actual.

(** src/crypto/hash.c:70-84: the loop of [hash_local_file].  [ctx]: what the digest has been given.
    None: it takes more than [fuel] turns. *)
Fixpoint hash_loop (ferror : Z) (e : evp) (blksize : nat) (kernel : answers) (fuel turn : nat) (ctx : list Z) (f : stream) : option (Z * list Z) :=
  match fuel with
  | O => None
  | S fuel =>
      let '(buffer, f) := fread kernel blksize f in
      let error := if in_error f then ferror else 0 in
      if negb (error =? 0) then Some (error, ctx)
      else if negb (update_works e turn) then Some (- c_EINVAL, ctx)
      else if at_eof f then Some (0, ctx ++ buffer)
      else hash_loop ferror e blksize kernel fuel (S turn) (ctx ++ buffer) f
  end.
(** src/crypto/hash.c:38-93 [hash_local_file]; the result, if any, is the digest. *)
Definition hash_local_file (sha256 : list Z -> list Z) (ferror : Z) (e : evp) (fuel : nat) (p : path_state) : option (Z * option (list Z) * list event) :=
  if negb (known e) then Some (- c_EINVAL, None, [])
  else match file_open p with
       | (0, Some (st, kernel), ev) =>
           let ev := ev ++ [Malloc; Malloc; Free; Free; Fclose] in        (* the buffer and the EVP_MD_CTX *)
           if negb (init_works e) then Some (- c_EINVAL, None, ev)
           else match hash_loop ferror e (st_blksize st) kernel fuel 0 [] fresh with
                | None => None
                | Some (0, ctx) => if final_works e then Some (0, Some (sha256 ctx), ev) else Some (- c_EINVAL, None, ev)
                | Some (error, _) => Some (error, None, ev)
                end
       | (error, _, ev) => Some (error, None, ev)
       end.
(** src/crypto/hash.c:32-36 [hash_file] is the same, of the local file of the URI. *)

(** src/common.h:24 [ENSURE_NEGATIVE]. *)
Definition ensure_negative (error : Z) : Z := if error <? 0 then error else - error.
(** src/crypto/hash.c:106-140 [hash_validate_mft_file].  [unused]: the unused bits of the BIT STRING. *)
Definition hash_validate_mft_file (sha256 : list Z -> list Z) (ferror : Z) (e : evp) (not_found not_match : action) (fuel : nat)
    (p : path_state) (expected : list Z) (unused : Z) : option Z :=
  if negb (unused =? 0) then Some (- c_EINVAL)
  else match hash_local_file sha256 ferror e fuel p with
       | None => None
       | Some (0, Some actual, _) => if negb (hash_matches expected actual) then Some (incidence not_match) else Some 0
       | Some (error, _, _) =>
           if (error =? c_EACCES) || (error =? c_ENOENT)
           then (if negb (incidence not_found =? 0) then Some (- c_EINVAL) else Some error)
           else Some (ensure_negative error)
       end.
(** src/crypto/hash.c:146-164 [hash_validate_file]. *)
Definition hash_validate_file (sha256 : list Z -> list Z) (ferror : Z) (e : evp) (fuel : nat) (p : path_state) (expected : list Z) : option Z :=
  match hash_local_file sha256 ferror e fuel p with
  | None => None
  | Some (0, Some actual, _) => if negb (hash_matches expected actual) then Some (- c_EINVAL) else Some 0
  | Some (error, _, _) => Some error
  end.
(** src/crypto/hash.c:166-191 [hash_buffer]. *)
Definition hash_buffer (digest : list Z -> list Z) (e : evp) (content : list Z) : Z * option (list Z) :=
  if negb (known e) then (- c_EINVAL, None)
  else if init_works e && update_works e 0 && final_works e then (0, Some (digest content)) else (- c_EINVAL, None).
(** src/crypto/hash.c:196-212 [hash_validate], 214-221 [hash_validate_octet_string]. *)
Definition hash_validate (digest : list Z -> list Z) (e : evp) (expected data : list Z) : Z :=
  match hash_buffer digest e data with
  | (0, Some actual) => if hash_matches expected actual then 0 else - c_EINVAL
  | (error, _) => error
  end.
