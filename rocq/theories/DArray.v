(** Model of src/rtr/db/deltas_array.c: the circular array of deltas.

    [D] is the type of a stored delta ([struct deltas *]); a slot is
    [None] when it still holds the NULL pcalloc() left there.
    [lifetime] is config_get_deltas_lifetime() (a uint32 constant during a
    run: src/config.c:1228-1232). *)
From Verif Require Import Base.

Section DArray.
  Context {D : Type}.

  (** src/rtr/db/deltas_array.c:9-13 [struct deltas_array]. *)
  Record darray := {
    da_slots : list (option D); (* @array; its length is the allocation *)
    da_len : Z;                 (* @len *)
    da_last : Z;                (* @last *)
  }.

  (** src/rtr/db/deltas_array.c:15-28 [darray_create]. *)
  Definition darray_create (lifetime : Z) : darray :=
    {| da_slots := repeat None (Z.to_nat lifetime);
       da_len := 0;
       da_last := UINT_MAX |}.

  (** array[i], for reading: out of the allocation is UB. *)
  Definition slot_get (l : list (option D)) (i : Z) : res (option D) :=
    match nth_error l (Z.to_nat i) with
    | Some s => if i <? 0 then UB else Ok s
    | None => UB
    end.

  (** array[i] = d. *)
  Definition slot_set (l : list (option D)) (i : Z) (d : D)
    : res (list (option D)) :=
    if (i <? 0) || (Z.of_nat (length l) <=? i) then UB
    else Ok (upd l (Z.to_nat i) (Some d)).

  (** src/rtr/db/deltas_array.c:44-60 [darray_add].
      deltas_refput(array[first]) dereferences the old slot: NULL is UB.
      Simplification: the reference count of the evicted delta is not
      modelled. *)
  Definition darray_add (lifetime : Z) (a : darray) (d : D) : res darray :=
    if da_len a <? lifetime then
      match slot_set (da_slots a) (da_len a) d with
      | Ok sl => Ok {| da_slots := sl;
                       da_len := wrap32 (da_len a + 1);
                       da_last := da_len a |}
      | Err e => Err e
      | UB => UB
      end
    else
      let first := if da_last a =? wrap32 (da_len a - 1)
                   then 0 else wrap32 (da_last a + 1) in
      match slot_get (da_slots a) first with
      | Ok (Some _) =>
          match slot_set (da_slots a) first d with
          | Ok sl => Ok {| da_slots := sl;
                           da_len := da_len a;
                           da_last := first |}
          | Err e => Err e
          | UB => UB
          end
      | _ => UB
      end.

  (** src/rtr/db/deltas_array.c:88-95, the loop of [darray_foreach_since].
      The visited deltas are returned in order (the only callback the code
      uses, __deltas_foreach in vrps.c:375-380, cannot fail). [fuel] bounds
      the iterations; running out is [UB] (excluded by the theorems). *)
  Fixpoint since_loop (slots : list (option D)) (len i limit : Z) (fuel : nat)
    : res (list D) :=
    if i <? limit then
      match fuel with
      | O => UB
      | S f =>
          let j := if len <=? i then i - len else i in
          match slot_get slots j with
          | Ok (Some d) =>
              match since_loop slots len (wrap32 (i + 1)) limit f with
              | Ok ds => Ok (d :: ds)
              | r => r
              end
          | _ => UB
          end
      end
    else Ok [].

  (** src/rtr/db/deltas_array.c:71-98 [darray_foreach_since]. *)
  Definition darray_foreach_since (a : darray) (from : Z) : res (list D) :=
    if from =? 0 then Ok []
    else if da_len a <? from then Err EINVAL
    else
      let i0 := wrap32 (da_last a - from + 1) in
      let i := if da_len a <? i0 then wrap32 (i0 + da_len a) else i0 in
      let limit := wrap32 (from + i) in
      since_loop (da_slots a) (da_len a) i limit (Z.to_nat from).

  (** Any sequence of additions. *)
  Fixpoint darray_adds (lifetime : Z) (a : darray) (ds : list D) : res darray :=
    match ds with
    | [] => Ok a
    | d :: t => bind (darray_add lifetime a d) (fun a' => darray_adds lifetime a' t)
    end.
End DArray.
Arguments darray : clear implicits.
