(** The text of an RRDP <publish> element: src/rrdp.c:155-273 and src/crypto/base64.c:25-109. *)
From Coq Require Import ZArith List Bool Lia.
From Verif Require Import Base CLib.
Import ListNotations.
Open Scope Z_scope.

(** isspace( *start ): undefined on the negative values of the (signed) chars that aren't ASCII. *)
Definition is_space (c : Z) : res bool := if (0 <=? c) && (c <=? 127) then Ok (isspace c) else UB.

(** src/rrdp.c:157-175 [ltrim].  [from] is the string, without its NUL (where isspace() is false).
    [Ok start]: *result and, as its length, *result_size. *)
Fixpoint ltrim (from : list Z) : res (list Z) :=
  match from with
  | [] => Err EINVAL
  | c :: t => bind (is_space c) (fun b => if b then ltrim t else Ok from)
  end.

(** A heap block: [None] is a byte that has not been written. *)
Definition block := list (option Z).
Definition pmalloc (n : nat) : block := repeat None n.
(** memcpy(&b[off], src, length src); undefined out of bounds. *)
Definition put (b : block) (off : nat) (src : list Z) : res block :=
  if Nat.leb (off + length src) (length b)
  then Ok (firstn off b ++ map Some src ++ skipn (off + length src) b) else UB.
(** prealloc() *)
Definition prealloc (b : block) (n : nat) : block := firstn n b ++ repeat None (n - length b).
(** memcpy()'s reads of [n] bytes from a string ([tmp] and its NUL). *)
Definition get (tmp : list Z) (n : nat) : res (list Z) :=
  if Nat.leb n (length (tmp ++ [0])) then Ok (firstn n (tmp ++ [0])) else UB.
(** What a reader of the string at the block's start sees. *)
Fixpoint c_string (b : block) : res (list Z) :=
  match b with
  | Some c :: b => if c =? 0 then Ok [] else bind (c_string b) (fun s => Ok (c :: s))
  | _ => UB
  end.

Definition BUF_SIZE : nat := 65.
(** src/rrdp.c:184-229 [base64_sanitize]: its loop.  [fuel]: one iteration for each character at most. *)
Fixpoint sanitize_loop (fuel : nat) (result : block) (offset : nat) (tmp : list Z) (original_size : nat) : res (block * nat) :=
  match fuel with
  | O => Ok (result, offset)
  | S fuel =>
      if Nat.ltb 0 original_size then
        let buf_len := if Nat.ltb BUF_SIZE original_size then BUF_SIZE else original_size in
        bind (get tmp buf_len) (fun piece =>
        bind (put result offset piece) (fun result =>
        let tmp := skipn buf_len tmp in
        let offset := (offset + buf_len)%nat in
        let original_size := (original_size - buf_len)%nat in
        if Nat.leb original_size 0 then Ok (result, offset)
        else bind (put result offset [10]) (fun result =>
             sanitize_loop fuel result (offset + 1) tmp original_size)))
      else Ok (result, offset)
  end.
(** src/rrdp.c:184-229 [base64_sanitize].  [Ok s]: the string at *out. *)
Definition base64_sanitize (content : list Z) : res (list Z) :=
  bind (ltrim content) (fun tmp =>
  let original_size := length tmp in
  if Nat.leb original_size BUF_SIZE then Ok content                       (* pstrdup(content) *)
  else
    let new_size := (original_size + original_size / BUF_SIZE)%nat in
    bind (sanitize_loop original_size (pmalloc (new_size + 1)) 0 tmp original_size) (fun r =>
    let '(result, offset) := r in
    let result := if Nat.eqb offset (new_size + 1) then result else prealloc result (offset + 1) in
    bind (put result offset [0]) c_string)).

(** A decoding BIO (libcrypto): what it has to give, and whether reading it leaves something in the
    error queue.  [bio_chunk]: how many bytes each BIO_read() gives (at least one, if it can). *)
Record bio := { bio_data : list Z; bio_error : bool; bio_chunk : nat -> nat }.
(** src/crypto/base64.c:26-110 [base64_decode]: its loop.  [out]: the caller's block, of [out_len]
    bytes; [k]: the number of calls to BIO_read(). *)
Fixpoint decode_loop (fuel k : nat) (b : bio) (left : list Z) (out : block) (offset out_len : nat) : res (block * nat) :=
  match fuel with
  | O => Ok (out, offset)
  | S fuel =>
      let room := (out_len - offset)%nat in
      let written := Nat.min (Nat.min room (length left)) (Nat.max 1 (bio_chunk b k)) in
      if Nat.eqb written 0 then Ok (out, offset)                          (* written <= 0 *)
      else bind (put out offset (firstn written left)) (fun out =>
           decode_loop fuel (S k) b (skipn written left) out (offset + written) out_len)
  end.
(** src/crypto/base64.c:26-110 [base64_decode].  [pushed]: BIO_new() and BIO_push() succeed.
    [Ok (Some (out, out_written))] is success. *)
Definition base64_decode (pushed : bool) (b : bio) (out : block) (out_len : nat) : res (option (block * nat)) :=
  if negb pushed then Ok None
  else bind (decode_loop (S (length (bio_data b))) 0 b (bio_data b) out 0 out_len) (fun r =>
       if bio_error b then Ok None else Ok (Some r)).

(** EVP_DECODE_LENGTH() (libcrypto) *)
Definition EVP_DECODE_LENGTH (l : nat) : nat := ((l + 3) / 4 * 3 + 80)%nat.

(** The first [n] bytes of a block, as its user reads them. *)
Fixpoint bytes (b : block) (n : nat) {struct n} : res (list Z) :=
  match n with
  | O => Ok []
  | S n => match b with Some c :: b => bind (bytes b n) (fun l => Ok (c :: l)) | _ => UB end
  end.

(** libcrypto, as base64_read() uses it: whether BIO_new_mem_buf() and BIO_new()/BIO_push()
    succeed; what BIO_f_base64() makes of a string. *)
Record crypto := { cr_mem : bool; cr_push : bool; cr_decode : list Z -> bio }.

(** src/rrdp.c:231-273 [base64_read].  [Ok c]: *out's first *out_len bytes.  val_crypto_err()
    returns -EINVAL. *)
Definition base64_read (L : crypto) (content : list Z) : res (list Z) :=
  bind (base64_sanitize content) (fun sanitized =>
  if negb (cr_mem L) then Err EINVAL
  else
    let alloc_size := EVP_DECODE_LENGTH (length content) in
    bind (base64_decode (cr_push L) (cr_decode L sanitized) (pmalloc alloc_size) alloc_size) (fun r =>
    match r with
    | None => Err EINVAL
    | Some (result, result_len) => bytes result result_len
    end)).
