(** C90: which VRPs and router keys a cycle is to publish: RFC 8630 (TALs), 6480 (trees,
    TreeSpec.v), 8416 (SLURM, SlurmSpec.v). *)
From Coq Require Import String.
From Verif Require Import Base CString Types DbTable PathBuilder Tal TalSpec Tree TreeSpec Slurm SlurmSpec Vrps VrpsSpec TreeAloneSpec Cycle.
Notation length := List.length.

(** The TALs there are. *)
Definition tal_file (l : location) (path : list Z) : Prop :=
  match l with Nowhere => False | File p => path = p | Dir entries _ => In path entries /\ tal_name path end.

(** RFC 8630 2.2: [u] is the [i]th URI of the TAL, and [spki] is its key. *)
Definition tal_says (C : surroundings) (path : list Z) (i : nat) (u : rpki_uri) (spki : list Z) : Prop :=
  exists f comments texts body text key,
    c_file C path = inr f /\ tal_text comments texts body f /\ nth_error texts i = Some text /\
    (((exists t, text = cstr "rsync://" ++ t) /\ uri_create (w_J (c_world C path)) (w_repository (c_world C path)) (Some (base_name path)) UT_RSYNC None text = Ok u) \/
     ((exists t, text = cstr "https://" ++ t) /\ uri_create (w_J (c_world C path)) (w_repository (c_world C path)) (Some (base_name path)) UT_HTTPS None text = Ok u)) /\
    no_newlines key = no_newlines body /\ c_decode C (key ++ [0]) = Some spki.
(** The world of that TAL. *)
Definition world_of (C : surroundings) (path spki : list Z) : world := with_tal (c_world C path) (base_name path) spki.

(** A path of certificates from one of the TALs authorises the VRP. *)
Definition authorised_by (C : surroundings) (v : vrp) : Prop :=
  exists path i u spki n, tal_file (c_tals C) path /\ In (i, n) (c_tried C path) /\ tal_says C path i u spki /\
    authorised (world_of C path spki) (fun k => (n <= k)%nat) u v.

Section Spec.
  Context (pton4 : list Z -> option Z) (pton6 : list Z -> option (list Z)) (b64url : list Z -> option (list Z)) (valid_spki : list Z -> bool).

  (** The SLURM files of the cycles that had VRPs to apply them to, latest first. *)
  Fixpoint slurm_history (Cs : list surroundings) (cs : list cycle) : list slurm_cycle :=
    match Cs, cs with
    | C :: Cs, c :: cs =>
        slurm_history Cs cs ++ match c, c_slurm C with ValidationFailed, _ | _, None => [] | _, Some x => [x] end
    | _, _ => []
    end.
  (** The files whose rules are in force (C26): the last ones that could be loaded, as
      long as they haven't been removed; there may be none. *)
  Definition files_in_force (h : list slurm_cycle) (files : list (option json)) : Prop :=
    (files = [] /\ in_force pton4 pton6 b64url valid_spki h None) \/
    exists db h1 h0, h = h1 ++ (Ok (csums db), files) :: h0 /\ csums db <> [] /\
      loads pton4 pton6 b64url valid_spki files (lists db) /\ ~ no_rules (lists db) /\
      Forall (keeps pton4 pton6 b64url valid_spki (Some (csums db))) h1.

  (** Those of a cycle. *)
  Definition rules (C : surroundings) (h : list slurm_cycle) (files : list (option json)) : Prop :=
    match c_slurm C with None => files = [] | Some _ => files_in_force h files end.

  Definition filtered (files : list (option json)) (v : vrp) : Prop := exists j, prefix_filter files j /\ filter_matches_vrp pton4 pton6 j v.
  Definition asserted (files : list (option json)) (v : vrp) : Prop := exists j, prefix_assertion files j /\ asserts_vrp pton4 pton6 j v.
  Definition asserted_key (files : list (option json)) (k : router_key) : Prop := exists j, bgpsec_assertion files j /\ asserts_key b64url j k.
  (** What is to be published, if [valid] are the VRPs of the trees. *)
  Definition to_publish (valid : vrp -> Prop) (files : list (option json)) (v : vrp) : Prop :=
    (valid v /\ ~ filtered files v) \/ asserted files v.
End Spec.

(** If worlds don't change meanwhile: what [u]'s tree has. *)
Definition of_tree (W : world) (u : rpki_uri) (v : vrp) : Prop := exists s, alone W u s /\ roas_of (s_db s) v.
Definition works (W : world) (u : rpki_uri) : Prop := exists s, alone W u s.
(** [u] is the first of the URIs that are tried that works; [key]: the TAL's. *)
Definition elected (C : surroundings) (path key : list Z) (u : rpki_uri) : Prop :=
  exists before i n after, c_tried C path = before ++ (i, n) :: after /\ tal_says C path i u key /\ works (world_of C path key) u /\
    forall j m u', In (j, m) before -> tal_says C path j u' key -> ~ works (world_of C path key) u'.

(** What is assumed of what cycles meet: see TreeSpec.v [sane] and SlurmProofs2.v [files_ok]. *)
Record plausible (C : surroundings) : Prop := {
  pl_world : forall path spki, tal_file (c_tals C) path -> sane (world_of C path spki);
  pl_slurm : forall cs files root, c_slurm C = Some (cs, files) -> In (Some root) files -> json_ok root;
}.
