(** The list of RTR clients: src/data_structure/array_list.h, as the poll thread adds
    clients to it (without the lock: src/rtr/rtr.c:444) and removes them (with it),
    while the validation thread notifies them (with it).  One step is one access to
    shared memory. *)
From Verif Require Import Base.
Notation length := List.length.

(** A block of memory: freed, or some slots, maybe not yet initialised.  A slot holds
    a client (that is, a pointer to it: its descriptor stands for it). *)
Definition block := option (list (option Z)).
(** src/data_structure/array_list.h:7-15. *)
Record array_list := { al_array : option nat; al_len : nat; al_capacity : nat }.
Definition al_init : array_list := {| al_array := None; al_len := 0; al_capacity := 0 |}.

(** Where the poll thread is in src/data_structure/array_list.h:42-60 (add). *)
Inductive apc :=
| A_Idle
| A_Null (c : Z)                  (* l.46: array == NULL? *)
| A_Alloc (c : Z)                 (* l.47-49: capacity = 8; array = pmalloc() *)
| A_Len (c : Z)                   (* l.52: len++ *)
| A_While (c : Z)                 (* l.53: len >= capacity? *)
| A_Double (c : Z)                (* l.54: capacity *= 2 *)
| A_Realloc (c : Z)               (* l.55: prealloc() *)
| A_Assign (c : Z) (b : nat)      (* l.55: array = *)
| A_Store (c : Z).                (* l.59: array[len - 1] = elem *)
(** Where the other thread is in src/rtr/rtr.c:723-748 [rtr_notify]. *)
Inductive npc :=
| N_Idle
| N_First                         (* l.739: node = array, with the lock *)
| N_Check (b : option nat) (i : nat)   (* node < array + len? *)
| N_Visit (b : option nat) (i : nat)   (* l.740-743: *node *)
| N_Unlock.                       (* l.746 *)
(** What the poll thread does: accept_new_client() a client, or apply_pollfds(),
    which drops those that don't satisfy the predicate. *)
Inductive op := Add (c : Z) | Keep (f : Z -> bool).
(** [clients_]: a ghost, those that have been added and not dropped.  [rounds]: those
    that there were when each notification began, and those who were notified. *)
Record state := {
  heap : list block; list_ : array_list; adder : apc; todo : list op; notifier : npc;
  clients_ : list Z; round : list Z * list Z; rounds : list (list Z * list Z) }.

Definition get_block (h : list block) (b : option nat) : option (list (option Z)) :=
  match b with Some b => match nth_error h b with Some (Some l) => Some l | _ => None end | None => None end.
Definition with_list (s : state) (h : list block) (l : array_list) (a : apc) : state :=
  {| heap := h; list_ := l; adder := a; todo := todo s; notifier := notifier s; clients_ := clients_ s; round := round s; rounds := rounds s |}.

(** A step of the poll thread.  [None]: it has to wait, or has nothing to do. *)
Definition adder_step (s : state) : option (res state) :=
  let l := list_ s in
  match adder s with
  | A_Idle =>
      match todo s with
      | [] => None
      | Add c :: t => Some (Ok {| heap := heap s; list_ := l; adder := A_Null c; todo := t; notifier := notifier s; clients_ := clients_ s; round := round s; rounds := rounds s |})
      | Keep f :: t =>
          (* src/rtr/rtr.c:507-521 [delete_dead_clients], with the lock: see Rtr.v *)
          match notifier s with
          | N_Idle =>
              match al_array l with
              | None => Some (Ok {| heap := heap s; list_ := l; adder := A_Idle; todo := t; notifier := N_Idle; clients_ := filter f (clients_ s); round := round s; rounds := rounds s |})
              | Some b =>
                  match get_block (heap s) (Some b) with
                  | None => Some UB
                  | Some bl =>
                      let kept := filter (fun x => match x with Some c => f c | None => true end) (firstn (al_len l) bl) in
                      Some (Ok {| heap := upd (heap s) b (Some (kept ++ skipn (length kept) bl));
                                  list_ := {| al_array := al_array l; al_len := length kept; al_capacity := al_capacity l |};
                                  adder := A_Idle; todo := t; notifier := N_Idle; clients_ := filter f (clients_ s); round := round s; rounds := rounds s |})
                  end
              end
          | _ => None
          end
      end
  | A_Null c => Some (Ok (with_list s (heap s) l (match al_array l with None => A_Alloc c | Some _ => A_Len c end)))
  | A_Alloc c => Some (Ok (with_list s (heap s ++ [Some (repeat None 8)]) {| al_array := Some (length (heap s)); al_len := al_len l; al_capacity := 8 |} (A_Len c)))
  | A_Len c => Some (Ok (with_list s (heap s) {| al_array := al_array l; al_len := S (al_len l); al_capacity := al_capacity l |} (A_While c)))
  | A_While c => Some (Ok (with_list s (heap s) l (if Nat.leb (al_capacity l) (al_len l) then A_Double c else A_Store c)))
  | A_Double c => Some (Ok (with_list s (heap s) {| al_array := al_array l; al_len := al_len l; al_capacity := al_capacity l * 2 |} (A_Realloc c)))
  | A_Realloc c =>
      match al_array l, get_block (heap s) (al_array l) with
      | Some b, Some bl => Some (Ok (with_list s (upd (heap s) b None ++ [Some (bl ++ repeat None (al_capacity l - length bl))]) l (A_Assign c (length (heap s)))))
      | _, _ => Some UB
      end
  | A_Assign c b => Some (Ok (with_list s (heap s) {| al_array := Some b; al_len := al_len l; al_capacity := al_capacity l |} (A_While c)))
  | A_Store c =>
      match al_array l, get_block (heap s) (al_array l) with
      | Some b, Some bl =>
          if Nat.ltb (al_len l - 1) (length bl)
          then Some (Ok {| heap := upd (heap s) b (Some (upd bl (al_len l - 1) (Some c))); list_ := l; adder := A_Idle; todo := todo s;
                           notifier := notifier s; clients_ := clients_ s ++ [c]; round := round s; rounds := rounds s |})
          else Some UB
      | _, _ => Some UB
      end
  end.

Definition with_notifier (s : state) (n : npc) (r : list Z * list Z) (rs : list (list Z * list Z)) : state :=
  {| heap := heap s; list_ := list_ s; adder := adder s; todo := todo s; notifier := n; clients_ := clients_ s; round := r; rounds := rs |}.
(** A step of the other thread.  It's undefined to compare pointers to different
    blocks, to follow one to a freed block, and to follow an uninitialised one. *)
Definition notifier_step (s : state) : res state :=
  let l := list_ s in
  match notifier s with
  | N_Idle => Ok (with_notifier s N_First (clients_ s, []) (rounds s))
  | N_First => Ok (with_notifier s (N_Check (al_array l) 0) (round s) (rounds s))
  | N_Check b i =>
      match b, al_array l with
      | None, None => Ok (with_notifier s N_Unlock (round s) (rounds s))
      | Some x, Some y => if Nat.eqb x y then Ok (with_notifier s (if Nat.ltb i (al_len l) then N_Visit b i else N_Unlock) (round s) (rounds s)) else UB
      | _, _ => UB
      end
  | N_Visit b i =>
      match get_block (heap s) b with
      | Some bl =>
          match nth_error bl i with
          | Some (Some c) => Ok (with_notifier s (N_Check b (S i)) (fst (round s), snd (round s) ++ [c]) (rounds s))
          | _ => UB
          end
      | None => UB
      end
  | N_Unlock => Ok (with_notifier s N_Idle (round s) (rounds s ++ [round s]))
  end.

(** Who takes the next step. *)
Inductive turn := Poll_thread | Validation_thread.
Definition step (s : state) (t : turn) : option (res state) :=
  match t with Poll_thread => adder_step s | Validation_thread => Some (notifier_step s) end.
Fixpoint exec (s : state) (ts : list turn) : option (res state) :=
  match ts with
  | [] => Some (Ok s)
  | t :: ts => match step s t with Some (Ok s) => exec s ts | o => o end
  end.
Definition start (ops : list op) : state :=
  {| heap := []; list_ := al_init; adder := A_Idle; todo := ops; notifier := N_Idle; clients_ := []; round := ([], []); rounds := [] |}.
