(** A client's receive buffer, as a queue of bytes. *)
From Verif Require Import Base PduStream.
Notation length := List.length.
Open Scope list_scope.
Open Scope Z_scope.

(** What happens to the buffer: more is received, or the first [n] of the bytes
    it has are taken; and what is seen of it. *)
Inductive event := Receive | Take (n : Z).
Inductive seen := Says (s : buffer_state) | Bytes (bs : list Z).
(** All a socket still has to give. *)
Definition bytes_of (evs : list read_ev) : list Z := concat (map (fun e => match e with RData bs => bs | _ => [] end) evs).
(** The socket had nothing more for now, and why: it said so after giving
    [more]. *)
Inductive stopped : list read_ev -> list read_ev -> list Z -> buffer_state -> Prop :=
| s_none : stopped [] [] [] BS_WOULD_BLOCK
| s_block t : stopped (RWouldBlock :: t) t [] BS_WOULD_BLOCK
| s_error t : stopped (RErr :: t) t [] BS_ERROR
| s_eos t : stopped (REos :: t) t [] BS_EOS
| s_nothing t : stopped (RData [] :: t) t [] BS_EOS
| s_data bs t more evs1 st : bs <> [] -> stopped t evs1 more st -> stopped (RData bs :: t) evs1 (bs ++ more) st.
(** A history of a buffer which has [held] of a socket which still has [evs]:
    what is seen, and then what is held and what the socket has, after it.
    Receiving takes what the socket has, until it's stopped or 1024 bytes are
    held. *)
Inductive history : list event -> list Z -> list read_ev -> list seen -> list Z -> list read_ev -> Prop :=
| h_end held evs : history [] held evs [] held evs
| h_take n es held evs o held' evs' : 0 <= n <= Z.of_nat (length held) ->
    history es (skipn (Z.to_nat n) held) evs o held' evs' -> history (Take n :: es) held evs (Bytes (firstn (Z.to_nat n) held) :: o) held' evs'
| h_receive es held evs more evs1 st o held' evs' : bytes_of evs = more ++ bytes_of evs1 -> Z.of_nat (length (held ++ more)) <= 1024 ->
    (st = BS_KEEP_READING /\ Z.of_nat (length (held ++ more)) = 1024 \/ stopped evs evs1 more st /\ Z.of_nat (length (held ++ more)) < 1024) ->
    history es (held ++ more) evs1 o held' evs' -> history (Receive :: es) held evs (Says st :: o) held' evs'.
(** All bytes that were taken. *)
Definition taken (o : list seen) : list Z := concat (map (fun x => match x with Bytes bs => bs | Says _ => [] end) o).
