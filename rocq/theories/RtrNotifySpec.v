(** C82: notifications. *)
From Verif Require Import Base RtrNotify.
Notation length := List.length.

(** The clients that there must be, once [ops] are done. *)
Definition present (ops : list op) : list Z :=
  fold_left (fun l o => match o with Add c => l ++ [c] | Keep f => filter f l end) ops [].
(** No client is added during a notification. *)
Fixpoint exclusive (s : state) (ts : list turn) : Prop :=
  match ts with
  | [] => True
  | t :: ts =>
      match t with Poll_thread => notifier s = N_Idle | Validation_thread => adder s = A_Idle end /\
      match step s t with Some (Ok s) => exclusive s ts | _ => True end
  end.
(** What the array holds. *)
Definition contents (s : state) : option (list (option Z)) :=
  match al_array (list_ s) with
  | None => if Nat.eqb (al_len (list_ s)) 0 then Some [] else None
  | Some b => match nth_error (heap s) b with Some (Some bl) => if Nat.leb (al_len (list_ s)) (length bl) then Some (firstn (al_len (list_ s)) bl) else None | _ => None end
  end.
