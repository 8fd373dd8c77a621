(** The receive buffer of a client, with its memory: update_buffer() of
    src/rtr/pdu_stream.c, pointer by pointer.  PduStream.v only has the active
    bytes. *)
From Verif Require Import Base PduStream.
Notation length := List.length.
Open Scope list_scope.
Open Scope Z_scope.

(** src/rtr/pdu.h:66-71 [RTRPDU_MAX_LEN2]. *)
Definition RTRPDU_MAX_LEN2 : Z := 1024.
Definition wrap64 (x : Z) : Z := x mod 18446744073709551616.

(** src/rtr/pdu_stream.c:20-30 [struct pdu_stream]: [buffer], and the pointers
    [start] and [end] as offsets in it.  The cells which were never written
    have any value. *)
Record memory := { buffer : list Z; start : Z; end_ : Z }.
(** src/rtr/pdu_stream.c:43-55 [pdustream_create]; [garbage]: what malloc() gave. *)
Definition create (garbage : list Z) : memory := {| buffer := garbage; start := 0; end_ := 0 |}.
(** src/rtr/pdu_stream.c:65-69 [get_length]: a ptrdiff_t made a size_t. *)
Definition get_length (m : memory) : Z := wrap64 (end_ m - start m).

(** Part of the buffer, and writing it.  Outside of the buffer: [UB]. *)
Definition inside (b : list Z) (off n : Z) : bool := (0 <=? off) && (0 <=? n) && (off + n <=? Z.of_nat (length b)).
Definition load (b : list Z) (off n : Z) : res (list Z) :=
  if inside b off n then Ok (firstn (Z.to_nat n) (skipn (Z.to_nat off) b)) else UB.
Definition write (b : list Z) (off : Z) (bytes : list Z) : res (list Z) :=
  if inside b off (Z.of_nat (length bytes)) then Ok (firstn (Z.to_nat off) b ++ bytes ++ skipn (Z.to_nat off + length bytes) b) else UB.
(** memmove(). *)
Definition memmove (b : list Z) (dst src n : Z) : res (list Z) := bind (load b src n) (fun bytes => write b dst bytes).

(** read() on the socket, for at most [count] bytes. *)
Inductive outcome := Got (bytes : list Z) | Failed (would_block : bool).
Definition sys_read (evs : list read_ev) (count : Z) : outcome * list read_ev :=
  match evs with
  | [] => (Failed true, [])
  | RWouldBlock :: t => (Failed true, t)
  | RErr :: t => (Failed false, t)
  | REos :: t => (Got [], t)
  | RData bs :: t =>
      let rest := skipn (Z.to_nat count) bs in
      (Got (firstn (Z.to_nat count) bs), match rest with [] => t | _ => RData rest :: t end)
  end.

(** src/rtr/pdu_stream.c:96-123: the loop of [update_buffer].  The memory read()
    is allowed to write has to be of the buffer, whatever it then writes. *)
Fixpoint receive_loop (fuel : nat) (m : memory) (evs : list read_ev) : res (memory * buffer_state * list read_ev) :=
  match fuel with
  | O => Err (EOTHER 40)      (* shown unreachable *)
  | S fuel =>
      if end_ m <? start m + RTRPDU_MAX_LEN2 then
        let count := wrap64 (RTRPDU_MAX_LEN2 - get_length m) in
        if inside (buffer m) (end_ m) count then
          match sys_read evs count with
          | (Failed true, evs) => Ok (m, BS_WOULD_BLOCK, evs)
          | (Failed false, evs) => Ok (m, BS_ERROR, evs)
          | (Got [], evs) => Ok (m, BS_EOS, evs)
          | (Got bytes, evs) =>
              bind (write (buffer m) (end_ m) bytes) (fun b =>
              receive_loop fuel {| buffer := b; start := start m; end_ := end_ m + Z.of_nat (length bytes) |} evs)
          end
        else UB
      else Ok (m, BS_KEEP_READING, evs)
  end.
(** src/rtr/pdu_stream.c:82-124 [update_buffer]. *)
Definition update_memory (m : memory) (evs : list read_ev) : res (memory * buffer_state * list read_ev) :=
  bind (if negb (start m =? 0) then
          bind (if negb (start m =? end_ m) then memmove (buffer m) 0 (start m) (get_length m) else Ok (buffer m)) (fun b =>
          Ok {| buffer := b; start := 0; end_ := end_ m - start m |})
        else Ok m) (fun m =>
  receive_loop 1026 m evs).

(** The [n] next bytes, and "stream->start += n": src/rtr/pdu_stream.c:291-478,
    the loaders. *)
Definition consume (m : memory) (n : Z) : res (list Z * memory) :=
  bind (load (buffer m) (start m) n) (fun bytes => Ok (bytes, {| buffer := buffer m; start := start m + n; end_ := end_ m |})).
