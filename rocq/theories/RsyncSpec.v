(** Specification vocabulary for C85. *)
From Verif Require Import Base Rsync.
Notation length := List.length.

(** The kernel keeps the set of open descriptors: closing one that isn't open (or was given to someone else since) is an error. *)
Inductive fds : list Z -> list action -> list Z -> Prop :=
| fds_end o : fds o [] o
| fds_open o n l o' : ~ In n o -> fds (n :: o) l o' -> fds o (AOpen n :: l) o'
| fds_close o1 n o2 l o' : fds (o1 ++ o2) l o' -> fds (o1 ++ n :: o2) (AClose n :: l) o'
| fds_fork o p l o' : fds o l o' -> fds o (AFork p :: l) o'
| fds_kill o p l o' : fds o l o' -> fds o (AKill p :: l) o'
| fds_reap o p l o' : fds o l o' -> fds o (AReap p :: l) o'
| fds_sleep o l o' : fds o l o' -> fds o (ASleep :: l) o'.
(** The children that were not waited for: a signal for any other process is an error. *)
Inductive children : list Z -> list action -> list Z -> Prop :=
| ch_end o : children o [] o
| ch_fork o p l o' : children (p :: o) l o' -> children o (AFork p :: l) o'
| ch_kill o p l o' : In p o -> children o l o' -> children o (AKill p :: l) o'
| ch_reap o1 p o2 l o' : children (o1 ++ o2) l o' -> children (o1 ++ p :: o2) (AReap p :: l) o'
| ch_open o n l o' : children o l o' -> children o (AOpen n :: l) o'
| ch_close o n l o' : children o l o' -> children o (AClose n :: l) o'
| ch_sleep o l o' : children o l o' -> children o (ASleep :: l) o'.
Definition forks (l : list action) : nat := length (filter (fun a => match a with AFork _ => true | _ => false end) l).

(** pipe() returns descriptors that aren't open, errno is positive, and poll() doesn't say an open descriptor isn't open. *)
Definition valid_event (e : poll_event) : Prop :=
  match e with
  | PTimeout => True
  | PError e => 0 < e
  | PReady a b _ => a <> EvNval /\ b <> EvNval /\ (forall e, a = EvIn (RdError e) -> 0 < e) /\ (forall e, b = EvIn (RdError e) -> 0 < e)
  end.
Definition valid_run (r : run) : Prop :=
  (forall a b, ru_pipe1 r = inl (a, b) -> a <> b) /\
  (forall a b c d, ru_pipe1 r = inl (a, b) -> ru_pipe2 r = inl (c, d) -> NoDup [a; b; c; d]) /\
  (forall e, ru_pipe1 r = inr e -> 0 < e) /\ (forall e, ru_pipe2 r = inr e -> 0 < e) /\ (forall e, ru_fork r = inr e -> 0 < e) /\ (forall e, ru_wait r = WError e -> 0 < e) /\
  Forall valid_event (ru_polls r).
(** rsync was started. *)
Definition started (r : run) : Prop := exists a b p, ru_pipe1 r = inl a /\ ru_pipe2 r = inl b /\ ru_fork r = inl p.
(** rsync was started and finished with this exit code.  (If nothing else happens, poll() times out eventually.) *)
Definition exits (r : run) (code : Z) : Prop := started r /\ In PTimeout (ru_polls r) /\ ru_wait r = WExited code.
(** The end of the stream was read. *)
Definition ended0 (evs : list poll_event) : Prop := exists b d, In (PReady (EvIn RdEnd) b d) evs.
Definition ended1 (evs : list poll_event) : Prop := exists a d, In (PReady a (EvIn RdEnd) d) evs.
(** Nothing was interrupted. *)
Definition uninterrupted (evs : list poll_event) : Prop :=
  Forall (fun e => match e with PTimeout => True | PError e => e <> 4 | PReady a b _ => a <> EvIn (RdError 4) /\ b <> EvIn (RdError 4) end) evs.
