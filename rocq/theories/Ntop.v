(** Model of inet_ntop() (glibc, resolv/inet_ntop.c). *)
From Verif Require Import Base Oid.
Notation length := List.length.

(** inet_ntop4(): "%u.%u.%u.%u". *)
Definition ntop4 (a : Z) : list Z :=
  udec (a / 16777216 mod 256) ++ 46 :: udec (a / 65536 mod 256) ++ 46 :: udec (a / 256 mod 256) ++ 46 :: udec (a mod 256).

(** printf("%x"), for 16 bits. *)
Definition hexl_digit (d : Z) : Z := if d <? 10 then 48 + d else 87 + d.
Fixpoint hexl_loop (fuel : nat) (n : Z) (acc : list Z) : list Z :=
  match fuel with
  | O => acc
  | S f => let acc := hexl_digit (n mod 16) :: acc in if n / 16 =? 0 then acc else hexl_loop f (n / 16) acc
  end.
Definition hexl (n : Z) : list Z := hexl_loop 4 n [].

(** inet_ntop6(): the address as 16-bit words. *)
Definition word (a : Z) (i : nat) : Z := a / 2 ^ (16 * (7 - Z.of_nat i)) mod 65536.
Definition words (a : Z) : list Z := map (word a) (seq 0 8).
(** The longest run of zeros, the first one of those. *)
Definition better (best cur : option (nat * nat)) : option (nat * nat) :=
  match cur, best with
  | None, _ => best
  | Some _, None => cur
  | Some (_, l), Some (_, l') => if Nat.ltb l' l then cur else best
  end.
Fixpoint runs (i : nat) (ws : list Z) (best cur : option (nat * nat)) : option (nat * nat) :=
  match ws with
  | [] => better best cur
  | w :: ws =>
      if w =? 0 then runs (S i) ws best (match cur with None => Some (i, 1%nat) | Some (b, l) => Some (b, S l) end)
      else runs (S i) ws (better best cur) None
  end.
Definition best_run (ws : list Z) : option (nat * nat) :=
  match runs 0 ws None None with
  | Some (b, l) => if Nat.ltb l 2 then None else Some (b, l)
  | None => None
  end.
(** The loop that formats; [v4]: the last 32 bits. *)
Fixpoint ntop6_loop (best : option (nat * nat)) (w5 v4 : Z) (i : nat) (ws : list Z) : list Z :=
  match ws with
  | [] => match best with Some (b, l) => if Nat.eqb (b + l) 8 then [58] else [] | None => [] end
  | w :: ws =>
      let inside := match best with Some (b, l) => Nat.leb b i && Nat.ltb i (b + l) | None => false end in
      if inside then (match best with Some (b, _) => if Nat.eqb i b then [58] else [] | None => [] end) ++ ntop6_loop best w5 v4 (S i) ws
      else
        (if Nat.eqb i 0 then [] else [58]) ++
        let mapped := match best with Some (b, l) => Nat.eqb i 6 && Nat.eqb b 0 && (Nat.eqb l 6 || (Nat.eqb l 5 && (w5 =? 65535))) | None => false end in
        if mapped then ntop4 v4 else hexl w ++ ntop6_loop best w5 v4 (S i) ws
  end.
Definition ntop6 (a : Z) : list Z :=
  ntop6_loop (best_run (words a)) (word a 5) (a mod 4294967296) 0 (words a).
