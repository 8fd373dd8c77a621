(** Models of the C library functions the code relies on (glibc behaviour).
    Strings are byte lists without the terminating NUL. *)
From Verif Require Import Base.

(** isspace() in the "C" locale. *)
Definition isspace (c : Z) : bool := (c =? 32) || ((9 <=? c) && (c <=? 13)).
Definition isdigit (c : Z) : bool := (48 <=? c) && (c <=? 57).

Fixpoint skip_spaces (s : list Z) : list Z :=
  match s with
  | c :: t => if isspace c then skip_spaces t else s
  | [] => []
  end.
(** The leading digits, as a number, with how many they were. *)
Fixpoint digits (acc : Z) (n : nat) (s : list Z) : Z * nat * list Z :=
  match s with
  | c :: t => if isdigit c then digits (10 * acc + (c - 48)) (S n) t else (acc, n, s)
  | [] => (acc, n, [])
  end.

Definition ULONG_MAX : Z := 18446744073709551615.

(** strtoul(s, &end, 10): value, ERANGE?, what [end] points to.  64-bit
    unsigned long.  With no digits the result is 0, [end] is [s] and errno is
    left alone (glibc). *)
Definition strtoul (s : list Z) : Z * bool * list Z :=
  let s1 := skip_spaces s in
  let '(neg, s2) := match s1 with
                    | c :: t => if c =? 45 then (true, t) else if c =? 43 then (false, t) else (false, s1)
                    | [] => (false, [])
                    end in
  let '(v, n, rest) := digits 0 0 s2 in
  match n with
  | O => (0, false, s)
  | S _ => if ULONG_MAX <? v then (ULONG_MAX, true, rest)
           else (if neg then (- v) mod (ULONG_MAX + 1) else v, false, rest)
  end.

(** strtok() with a single delimiter: skip leading delimiters, then the token
    and what follows the delimiter that ends it. *)
Fixpoint skip_delim (d : Z) (s : list Z) : list Z :=
  match s with
  | c :: t => if c =? d then skip_delim d t else s
  | [] => []
  end.
Fixpoint span_delim (d : Z) (s : list Z) : list Z * list Z :=
  match s with
  | c :: t => if c =? d then ([], t) else let '(a, b) := span_delim d t in (c :: a, b)
  | [] => ([], [])
  end.
Definition strtok (d : Z) (s : list Z) : option (list Z) * list Z :=
  match skip_delim d s with
  | [] => (None, [])
  | s1 => let '(tok, rest) := span_delim d s1 in (Some tok, rest)
  end.

(** strchr(s, c) != NULL. *)
Definition has_char (c : Z) (s : list Z) : bool := existsb (Z.eqb c) s.
