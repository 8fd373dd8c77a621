(** A validation cycle as a whole: src/rtr/db/vrps.c [__vrps_update], made of the other
    modules: the TALs (Tal.v), the trees (Tree.v), SLURM (Slurm.v), and what is
    published (Vrps.v). *)
From Coq Require Import String.
From Verif Require Import Base CString Types DbTable PathBuilder Tal Tree Slurm Vrps.
Notation length := List.length.

(** What a cycle meets.  Each TAL has its own thread; its [world] (Tree.v) is what that
    one meets, at its own moments. *)
Record surroundings := {
  c_tals : location;
  c_realpath : list Z -> bool;
  c_spawned : list Z -> bool;                      (* pthread_create() *)
  c_file : list Z -> Z + list Z;                   (* the TAL's file, or an error *)
  c_decode : list Z -> option (list Z);            (* base64_decode() of its key *)
  c_world : list Z -> world;
  (** cache_download_alt() (C36): which of the TAL's URIs are tried, one after the
      other, and from which moment on. *)
  c_tried : list Z -> list (nat * nat);
  (** The checksums of the SLURM files, and the files; [None]: none are configured. *)
  c_slurm : option (res (list (list Z)) * list (option json));
}.

(** The file's name, after the last slash (src/object/tal.c:284-285). *)
Definition base_name (path : list Z) : list Z := match strrchr 47 path with None => path | Some s => tl s end.
(** The world of a TAL. *)
Definition with_tal (W : world) (tal spki : list Z) : world := {|
  w_nid := w_nid W; w_ca_issuers := w_ca_issuers W; w_caRepository := w_caRepository W; w_ad_notify := w_ad_notify W; w_ad_mft := w_ad_mft W; w_ad_so := w_ad_so W;
  w_certPolicyRpki := w_certPolicyRpki W; w_certPolicyRpkiV2 := w_certPolicyRpkiV2 W; w_qt_cps := w_qt_cps W;
  w_commonName := w_commonName W; w_serialNumber := w_serialNumber W; w_sha256WithRSA := w_sha256WithRSA W; w_rsa := w_rsa W; w_ec := w_ec W; w_p256 := w_p256 W;
  w_obj2nid := w_obj2nid W; w_sha1 := w_sha1 W; w_sha256 := w_sha256 W; w_d2i_X509 := w_d2i_X509 W; w_load_X509 := w_load_X509 W; w_load_CRL := w_load_CRL W;
  w_d2i_PUBKEY := w_d2i_PUBKEY W; w_evp_verify := w_evp_verify W; w_verify := w_verify W; w_verify_stale := w_verify_stale W; w_read := w_read W; w_now := w_now W;
  w_rnd := w_rnd W; w_download := w_download W; w_J := w_J W; w_repository := w_repository W; w_tal := Some tal; w_spki := spki; w_max_depth := w_max_depth W;
  w_hashalg := w_hashalg W; w_not_found := w_not_found W; w_not_match := w_not_match W; w_mft_stale := w_mft_stale W; w_crl_stale := w_crl_stale W;
  w_nobuf := w_nobuf W; w_turns := w_turns W; w_slack := w_slack W; w_frames := w_frames W |}.

(** The URIs that are tried, until one of them works.  They share the table. *)
Fixpoint try_uris (W : world) (fuel : nat) (uris : list rpki_uri) (tried : list (nat * nat)) (db : db_table) : option (res thread) :=
  match tried with
  | [] => Some (Ok (Failed (-3)))
  | (i, n) :: tried =>
      match nth_error uris i with
      | None => try_uris W fuel uris tried db
      | Some u =>
          match handle_tal_uri W fuel n u db with
          | None => None
          | Some UB => Some UB
          | Some (Err e) => Some (Err e)
          | Some (Ok (db, true)) => Some (Ok (Done db))
          | Some (Ok (db, false)) => try_uris W fuel uris tried db
          end
      end
  end.
(** src/object/tal.c:423-459 [do_file_validation], in at most [fuel] rounds.  (What the
    error is doesn't matter.) *)
Definition do_file_validation (C : surroundings) (fuel : nat) (path : list Z) : option (res thread) :=
  let W := c_world C path in
  match c_file C path with
  | inl _ => Some (Ok (Failed (-22)))
  | inr f =>
      match tal_init (w_J W) (w_repository W) (base_name path) (c_decode C) f with
      | UB => Some UB
      | Err _ => Some (Ok (Failed (-22)))
      | Ok (uris, spki) => try_uris (with_tal W (base_name path) spki) fuel uris (c_tried C path) db_table_create
      end
  end.
(** The TALs (src/common.c:107-144 [process_file]). *)
Definition is_tal (l : location) (path : list Z) : Prop :=
  match l with Nowhere => False | File p => path = p | Dir entries _ => In path entries /\ strrchr 46 path = Some (cstr ".tal") end.
(** What becomes of a TAL's thread (Tal.v), if it ends. *)
Definition becomes (C : surroundings) (path : list Z) (t : thread) : Prop :=
  if c_spawned C path then exists fuel, do_file_validation C fuel path = Some (Ok t) else t = NoThread.

Section Cycle.
  (** As in Slurm.v. *)
  Context (pton4 : list Z -> option Z) (pton6 : list Z -> option (list Z)) (b64url : list Z -> option (list Z)) (valid_spki : list Z -> bool).

  (** src/rtr/db/vrps.c:195-206 and src/slurm/slurm_loader.c:268-304 [slurm_apply]:
      what is published (Vrps.v) and the SLURM kept; [run]: what becomes of the threads. *)
  Definition one_cycle (C : surroundings) (run : list Z -> thread) (slurm : option db_slurm) : res (cycle * option db_slurm) :=
    bind (perform_standalone_validation (c_realpath C) run (c_tals C)) (fun db =>
    match db with
    | None => Ok (ValidationFailed, slurm)
    | Some t =>
        match c_slurm C with
        | None => Ok (Validated t, slurm)
        | Some (csums, files) =>
            match slurm_apply pton4 pton6 b64url valid_spki t slurm csums files with
            | UB => UB
            | Err e => Ok (SlurmFailed e, match update_slurm pton4 pton6 b64url valid_spki slurm csums files with Ok s => s | _ => slurm end)
            | Ok (t, s) => Ok (Validated t, s)
            end
        end
    end).

  (** The cycles of a process that hasn't crashed, oldest first: what they met, the
      SLURM kept at the end, and what they published. *)
  Inductive history : list surroundings -> option db_slurm -> list cycle -> Prop :=
  | history_start : history [] None []
  | history_cycle Cs s cs C run c s' :
      history Cs s cs -> (forall path, is_tal (c_tals C) path -> becomes C path (run path)) -> one_cycle C run s = Ok (c, s') ->
      history (Cs ++ [C]) s' (cs ++ [c]).
End Cycle.
