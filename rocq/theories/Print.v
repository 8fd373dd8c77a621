(** --mode=print: src/print_file.c and src/types/bio_seq.c. *)
From Coq Require Import ZArith List Bool Lia.
From Verif Require Import Base Ber.
Import ListNotations.
Open Scope Z_scope.

(** src/config/file_type.h [enum file_type]. *)
Inductive file_type : Set := FT_UNK | FT_ROA | FT_MFT | FT_GBR | FT_CER | FT_CRL.

(** A BIO.  [Plain]: a file, a pipe or the standard input, with what's left of it and the number of
    times it has been read.  [Seq]: src/types/bio_seq.c:8-11 [struct bioseq_priv]; [prefix] is what's
    left of a memory BIO, or NULL. *)
Inductive bio : Type :=
| Plain (rest : list Z) (calls : nat)
| Seq (prefix : option (list Z)) (rest : list Z) (calls : nat).

Section Print.
  (** How many bytes each read of the file gives (at least one, if there is something left), and
      which reads fail. *)
  Variable chunk : nat -> nat.
  Variable fails : nat -> bool.

  (** BIO_read(bio, buffer, len): [None] is a negative result; [Some []] is 0. *)
  Definition plain_read (rest : list Z) (calls len : nat) : option (list Z) * list Z * nat :=
    if fails calls then (None, rest, S calls)
    else let n := Nat.min (Nat.min len (length rest)) (Nat.max 1 (chunk calls)) in
         (Some (firstn n rest), skipn n rest, S calls).
  (** src/types/bio_seq.c:13-30 [bioseq_read]; reading a memory BIO gives as much as it can. *)
  Definition bio_read (b : bio) (len : nat) : option (list Z) * bio :=
    match b with
    | Plain rest calls => let '(r, rest, calls) := plain_read rest calls len in (r, Plain rest calls)
    | Seq (Some p) rest calls =>
        let data := firstn len p in
        let p := skipn len p in
        if (Nat.eqb (length p) 0 || Nat.eqb (length data) 0)%bool      (* BIO_eof(prefix) || res <= 0 *)
        then (Some data, Seq None rest calls) else (Some data, Seq (Some p) rest calls)
    | Seq None rest calls => let '(r, rest, calls) := plain_read rest calls len in (r, Seq None rest calls)
    end.

  Definition HDRSIZE : nat := 32.
  (** src/print_file.c:110-121 [skip_sequence].  Pointers into hdrbuf are offsets. *)
  Definition skip_sequence (buf : list Z) (cursor : nat) : res (option nat) :=
    bind (ber_fetch_length true (skipn cursor buf) (HDRSIZE - cursor)) (fun r =>
    match r with
    | Got len_len _ => let cursor := (cursor + len_len)%nat in Ok (if Nat.leb cursor HDRSIZE then Some cursor else None)
    | _ => Ok None
    end).
  (** src/print_file.c:123-134 [skip_integer].  Computing an address that's beyond the buffer is taken
      to be harmless. *)
  Definition skip_integer (buf : list Z) (cursor : nat) : res (option nat) :=
    bind (ber_fetch_length false (skipn cursor buf) (HDRSIZE - cursor)) (fun r =>
    match r with
    | Got len_len len =>
        let cursor := Z.of_nat cursor + Z.of_nat len_len + len in
        Ok (if cursor <=? Z.of_nat HDRSIZE then Some (Z.to_nat cursor) else None)
    | _ => Ok None
    end).
  (** *ptr *)
  Definition byte_at (buf : list Z) (ptr : nat) : res Z := match nth_error buf ptr with Some b => Ok b | None => UB end.

  (** src/print_file.c:136-194 [guess_file_type]: what it makes of the header. *)
  Definition guess_header (hdrbuf : list Z) : res file_type :=
    bind (byte_at hdrbuf 0) (fun b =>
    if negb (b =? 48) then Ok FT_UNK else
    bind (skip_sequence hdrbuf 1) (fun p =>
    match p with
    | None => Ok FT_UNK
    | Some ptr =>
        bind (byte_at hdrbuf ptr) (fun b =>
        if b =? 6 then Ok FT_ROA else
        if negb (b =? 48) then Ok FT_UNK else
        bind (skip_sequence hdrbuf (ptr + 1)) (fun p =>
        match p with
        | None => Ok FT_UNK
        | Some ptr =>
            bind (skip_integer hdrbuf (ptr + 1)) (fun p =>
            match p with
            | None => Ok FT_UNK
            | Some ptr =>
                bind (byte_at hdrbuf ptr) (fun b =>
                if b =? 2 then Ok FT_CER else if b =? 48 then Ok FT_CRL else Ok FT_UNK)
            end)
        end))
    end)).
  (** src/print_file.c:136-194 [guess_file_type].  [cfg]: --file-type; [stack]: what hdrbuf had before;
      [created]: BIO_new_mem_buf() and BIO_new_seq() succeed.  [Ok (None, _)] is an error. *)
  Definition guess_file_type (cfg : file_type) (stack : list Z) (created : bool) (b : bio) : res (option file_type * option bio) :=
    match cfg with
    | FT_UNK =>
        match bio_read b HDRSIZE with
        | (None, b) | (Some [], b) => Ok (None, Some b)
        | (Some data, Plain rest calls) =>
            if created then
              bind (guess_header (data ++ skipn (length data) stack)) (fun t => Ok (Some t, Some (Seq (Some data) rest calls)))
            else Ok (None, None)
        | (Some _, Seq _ _ _) => UB                    (* it's never given one *)
        end
    | _ => Ok (Some cfg, Some b)
    end.

  (** A program that reads from a BIO (always with room for something), and what it yields. *)
  Inductive reader (A : Type) : Type :=
  | Stop (a : A)
  | Read (len_1 : nat) (next : option (list Z) -> reader A).       (* BIO_read(bio, buffer, len_1 + 1) *)
  Arguments Stop {A} a.
  Arguments Read {A} len_1 next.
  Fixpoint run {A} (r : reader A) (b : bio) : A :=
    match r with
    | Stop a => a
    | Read n next => let '(data, b) := bio_read b (S n) in run (next data) b
    end.

  (** src/print_file.c:196-231 [bio2ci].  [decode]: ber_decode(); its state is the structure that's been
      decoded so far.  Note that nothing is done about the bytes that RC_WMORE didn't consume. *)
  Inductive rval (X : Type) : Type := RC_OK (x : X) | RC_WMORE (x : X) (consumed : nat) | RC_FAIL.
  Arguments RC_OK {X} x.
  Arguments RC_WMORE {X} x consumed.
  Arguments RC_FAIL {X}.
  Fixpoint bio2ci {X} (decode : X -> list Z -> rval X) (fuel : nat) (ci : X) : reader (option X) :=
    match fuel with
    | O => Stop None
    | S fuel =>
        Read 4095 (fun r =>
        match r with
        | None | Some [] => Stop None
        | Some buffer =>
            match decode ci buffer with
            | RC_OK ci => Stop (Some ci)
            | RC_WMORE ci _ => bio2ci decode fuel ci
            | RC_FAIL => Stop None
            end
        end)
    end.

  (** src/print_file.c:249-298 [__print_file].  [opened]: filename2bio()'s result; [parse]: asn1c2json(),
      Certificate_bio2json() and CRL_bio2json(), by the type; [None]: NULL. *)
  Definition print_file {J} (cfg : file_type) (stack : list Z) (opened : option (list Z)) (created : bool)
      (parse : file_type -> reader (option J)) : res (option J) :=
    match opened with
    | None => Ok None
    | Some file =>
        bind (guess_file_type cfg stack created (Plain file 0)) (fun r =>
        match r with
        | (Some FT_UNK, _) => Ok None
        | (Some t, Some b) => Ok (run (parse t) b)
        | _ => Ok None
        end)
    end.
End Print.
Arguments Stop {A} a.
Arguments Read {A} len_1 next.
Arguments RC_OK {X} x.
Arguments RC_WMORE {X} x consumed.
Arguments RC_FAIL {X}.
