(** The content of a ROA, from bytes to the table. *)
From Verif Require Import Base Types DbTable SArray Resources Roa Objects.

(** src/object/roa.c:247-295 [roa_traverse]: decode_roa (line 266) and
    __handle_roa (line 284); what is in between are the checks of the object
    and of its certificate. *)
Definition roa_content (nobuf : bool) (turns : nat) (h : heap) (ee : resources) (db : db_table) (bs : list Z) : res (db_table * Z) :=
  match decode_roa nobuf turns bs with
  | None => Ok (db, E_INVAL)
  | Some r => handle_roa h ee db r
  end.
