(** * C83: the files FORT writes list exactly the validated data *)
From Coq Require Import String.
From Verif Require Import Base BaseLemmas CString Types DbTable Vrps VrpsSpec Oid OidSpec Ntop NtopSpec Output OutputSpec JsonProofs OutputProofs.
Notation length := List.length.

Definition ex_v4 : vrp := {| v_asn := 64496; v_fam := AF_INET; v_addr := 3221225984; v_len := 24; v_max := 28 |}.
Definition ex_v6 : vrp := {| v_asn := 4294967295; v_fam := AF_INET6; v_addr := 42540766411282592856903984951653826560; v_len := 32; v_max := 48 |}.
Definition ex_key : router_key := {| rk_ski := repeat 251 20; rk_asn := 0; rk_spk := map Z.of_nat (seq 100 91) |}.
Definition ex_table : db_table := {| t_roas := [ex_v4; ex_v6]; t_rks := [ex_key] |}.
Lemma ex_valid : valid_table ex_table.
Proof.
  unfold valid_table. split; [repeat constructor; cbn; unfold is_u32, is_byte; lia|]. split.
  - constructor; [|constructor]. unfold valid_key. split; [unfold is_u32; cbn; lia|]. split; [reflexivity|].
    split; [apply Forall_forall; intros x Hx; apply repeat_spec in Hx; subst; unfold is_byte; lia|]. split; [reflexivity|].
    apply Forall_forall. cbn. intros x Hx. unfold is_byte. repeat (destruct Hx as [<-|Hx]; [lia|]). contradiction.
  - split; repeat constructor; cbn; intuition discriminate.
Qed.

(** ** For every table of valid VRPs and router keys, in either format: both files are printed without reading beyond a buffer, and a
    program that reads them finds precisely the table's VRPs, and its router keys: each once. *)
Theorem C83_files_list_the_data : forall fmt t, valid_table t ->
  exists a b, output_print_data fmt t = Ok (a, b) /\ lists_roas fmt a (t_roas t) /\ lists_keys fmt b (t_rks t).
Proof. exact print_data_ok. Qed.
Print Assumptions C83_files_list_the_data.

Example C83_example : match output_print_data OFM_CSV ex_table with
  | Ok (a, b) => a = cstr "ASN,Prefix,Max prefix length" ++ [10] ++ cstr "AS64496,192.0.2.0/24,28" ++ [10] ++ cstr "AS4294967295,2001:db8::/32,48" ++ [10] /\
      roas_csv a = Some (t_roas ex_table) /\ keys_csv b = Some (t_rks ex_table)
  | _ => False
  end.
Proof. vm_compute. repeat split. Qed.
Example C83_example_json : match output_print_data OFM_JSON ex_table with
  | Ok (a, b) => firstn 72 a = cstr "{ " ++ [34] ++ cstr "roas" ++ [34] ++ cstr " : [" ++ [10] ++
      cstr "  { " ++ [34] ++ cstr "asn" ++ [34] ++ cstr ": " ++ [34] ++ cstr "AS64496" ++ [34] ++ cstr ", " ++ [34] ++ cstr "prefix" ++ [34] ++ cstr ": " ++ [34] ++ cstr "192.0.2.0/24" ++ [34] ++
      cstr ", " ++ [34] ++ cstr "maxLength" ++ [34]
  | _ => False
  end.
Proof. vm_compute. reflexivity. Qed.

(** ** There's one way to read the files: no file lists two different things. *)
Theorem C83_one_reading : forall fmt file,
  (forall l l', lists_roas fmt file l -> lists_roas fmt file l' -> l = l') /\
  (forall l l', lists_keys fmt file l -> lists_keys fmt file l' -> l = l').
Proof.
  intros [|] file; split; intros l l'; cbn [lists_roas lists_keys]; try congruence; [apply (json_file_unique json_roa)|apply (json_file_unique json_key)].
Qed.
Print Assumptions C83_one_reading.

(** ** What is in the files is what routers get.  For every history of validation cycles, whatever files there were: after the last cycle,
    if there is something to serve, the files list exactly the VRPs and router keys that are served; otherwise the files haven't been
    touched. *)
Theorem C83_files_are_what_routers_get : forall fmt lifetime now ra rb cs,
  1 <= lifetime < 2147483648 -> Forall valid_cycle cs ->
  exists p, print_run fmt lifetime {| p_state := vrps_init lifetime now; p_roas := ra; p_keys := rb |} cs = Ok p /\
    vrps_run lifetime (vrps_init lifetime now) cs = Ok (p_state p) /\
    match s_base (p_state p) with
    | None => p_roas p = ra /\ p_keys p = rb
    | Some t => exists vs ks, lists_roas fmt (p_roas p) vs /\ lists_keys fmt (p_keys p) ks /\ NoDup vs /\ NoDup ks /\
                  (forall v, In v vs <-> roas_of t v) /\ (forall k, In k ks <-> rks_of t k)
    end.
Proof. intros fmt lifetime now ra rb cs. apply files_current. Qed.
Print Assumptions C83_files_are_what_routers_get.

Example C83_example_history : Forall valid_cycle [ValidationFailed; Validated ex_table; Validated ex_table; SlurmFailed EINVAL] /\
  match print_run OFM_CSV 2 {| p_state := vrps_init 2 1000; p_roas := [1]; p_keys := [2] |} [ValidationFailed; Validated ex_table; Validated ex_table; SlurmFailed EINVAL] with
  | Ok p => roas_csv (p_roas p) = Some (t_roas ex_table) /\ s_base (p_state p) = Some ex_table /\ s_serial (p_state p) = 1
  | _ => False
  end.
Proof. split; [repeat (apply Forall_cons; [try exact I; try apply ex_valid|]); apply Forall_nil|vm_compute; repeat split]. Qed.

(** ** A JSON file that was not written completely is never mistaken for another one: whatever the file was cut to, if it can still be
    read, it lists the whole table. *)
Theorem C83_json_truncated : forall t a b room, valid_table t -> output_print_data OFM_JSON t = Ok (a, b) ->
  (forall l, roas_json (kept room a) l -> l = t_roas t) /\ (forall l, keys_json (kept room b) l -> l = t_rks t).
Proof.
  intros t a b room V E. destruct (print_data_ok OFM_JSON t V) as (a' & b' & E' & A & B). rewrite E in E'. injection E' as <- <-. cbn [lists_roas lists_keys] in A, B.
  split; intros l H; symmetry; [exact (json_file_truncated json_roa _ a _ _ room A H)|exact (json_file_truncated json_key _ b _ _ room B H)].
Qed.
Print Assumptions C83_json_truncated.
Example C83_example_truncated : match output_print_data OFM_JSON ex_table with
  | Ok (a, b) => kept (length a - 1) a ++ [10] = a
  | _ => False
  end.
Proof. vm_compute. reflexivity. Qed.

(** ** But a CSV file is: a cut file can be the file of a table with fewer VRPs.  Nothing says it's incomplete: fprintf()'s and fclose()'s results
    are ignored and the file is overwritten in place. *)
Theorem C83_csv_truncated_refuted : exists t a b room t',
  valid_table t /\ output_print_data OFM_CSV t = Ok (a, b) /\
  valid_table t' /\ t_roas t' <> t_roas t /\ roas_csv (kept room a) = Some (t_roas t').
Proof.
  exists ex_table. eexists _, _, 53%nat, {| t_roas := [ex_v4]; t_rks := [] |}. split; [apply ex_valid|]. split; [vm_compute; reflexivity|].
  split; [|split; [discriminate|vm_compute; reflexivity]].
  destruct ex_valid as (V & _). inversion V as [|? ? V1 _]; subst. split; [constructor; [exact V1|constructor]|]. split; [constructor|]. split; repeat constructor; intros [].
Qed.
Print Assumptions C83_csv_truncated_refuted.

(** ** The base 64 encoder: what can be read back, and when it reads beyond its buffer.  (FORT only encodes 20 and 91 bytes.) *)
Theorem C83_base64url : forall l, Forall is_byte l ->
  ((length l mod 3 <> 0)%nat -> exists s, base64url_encode l = Ok s /\ unbase64url s = l) /\
  ((length l mod 3 = 0)%nat -> base64url_encode l = UB).
Proof.
  intros l F. split; intros H; [destruct (encode_ok l F H) as (s & E & D & _); exists s; auto|apply encode_overread; assumption].
Qed.
Print Assumptions C83_base64url.
Example C83_example_base64 : base64url_encode [251; 255; 0; 16] = Ok (cstr "-_8AEA") /\ base64url_encode [1; 2; 3] = UB.
Proof. vm_compute. auto. Qed.
