(** C02, C03: the delta history. *)
From Verif Require Import Base DArray DArraySpec DArrayProofs.

(** C02.  For every lifetime in [1, 2^31) and every sequence of additions, no
    access is out of bounds ([Ok]), the stored count is min(k, lifetime), and
    "since n" visits exactly the n most recent deltas, oldest first; larger
    n is refused with EINVAL. *)
Theorem C02_darray_is_sliding_window :
  forall (D : Type) (lifetime : Z) (ds : list D),
  1 <= lifetime < 2147483648 ->
  exists a, darray_adds lifetime (darray_create lifetime) ds = Ok a /\
    da_len a = Z.min (Z.of_nat (length ds)) lifetime /\
    (forall n, 0 <= n <= da_len a ->
       darray_foreach_since a n = Ok (last_n (Z.to_nat n) ds)) /\
    (forall n, da_len a < n -> darray_foreach_since a n = Err EINVAL).
Proof. intros D. exact darray_window_lem. Qed.
Print Assumptions C02_darray_is_sliding_window.

Example C02_wrapped :
  match darray_adds 3 (darray_create 3) [10;11;12;13;14] with
  | Ok a => darray_foreach_since a 3 = Ok [12;13;14] /\
            darray_foreach_since a 2 = Ok [13;14] /\
            darray_foreach_since a 4 = Err EINVAL
  | _ => False
  end.
Proof. vm_compute. repeat split. Qed.

(** C03 (refuted).  The configuration accepts lifetime 0 (src/config.c:417-424,
    min = 0): the first stored delta is written outside the zero-sized array. *)
Theorem C03_lifetime_zero_refuted :
  exists lifetime : Z, 0 <= lifetime <= UINT_MAX /\
    forall (D : Type) (d : D), darray_add lifetime (darray_create lifetime) d = UB.
Proof. exists 0. split; [unfold UINT_MAX; lia|]. intros D d. reflexivity. Qed.
Print Assumptions C03_lifetime_zero_refuted.
