(** Specification vocabulary for C105. *)
From Coq Require Import String.
From Verif Require Import Base CString HttpOpts.
Notation length := List.length.
Open Scope list_scope.
Open Scope Z_scope.

Definition uint (n : Z) : Prop := 0 <= n < 2 ^ 32.
(** What validate_config() lets through; a directory's name is not longer than eight million bytes. *)
Definition valid (c : http_config) : Prop :=
  uint (max_redirs c) /\ uint (connect_timeout c) /\ 1 <= connect_timeout c /\ uint (transfer_timeout c) /\ uint (low_speed_limit c) /\ uint (low_speed_time c) /\
  0 <= max_file_size c <= 2000000000 /\ (forall p, ca_path c = Some p -> Z.of_nat (length p) <= 8000000).
(** The URLs FORT uses begin with "https://". *)
Definition https (u : list Z) : Prop := exists rest, u = cstr "https://" ++ rest.
(** The server has a certificate for its name, by a CA of the configured directory (or the system's). *)
Definition verified (c : http_config) (x : exchange) : Prop := x_trusted x (ca_path c) = true /\ x_named x = true.
(** The date a request has. *)
Definition condition (ims : Z) (d : option Z) : Prop := (0 < ims -> d = Some ims) /\ (ims <= 0 -> d = None).
Fixpoint total (net : list Z -> option Z -> exchange) (l : list request) : Z :=
  match l with [] => 0 | (u, d) :: l => x_duration (net u d) + total net l end.
(** From URL [u], redirects lead through these requests to this answer; a redirect leads to an HTTPS server. *)
Inductive chain (net : list Z -> option Z -> exchange) (d : option Z) : list Z -> list request -> exchange -> Prop :=
| chain_end u : chain net d u [(u, d)] (net u d)
| chain_redirect u v l x : x_answer (net u d) = Redirect v -> https v -> chain net d v l x -> chain net d u ((u, d) :: l) x.
(** The server is fast enough. *)
Definition prompt (c : http_config) (x : exchange) : Prop :=
  x_connect x <= 1000 * Z.min (connect_timeout c) 300 /\ (0 < low_speed_limit c -> 0 < low_speed_time c -> x_slow x (low_speed_limit c) < low_speed_time c).
