(** Specification vocabulary for ROAs (C22, C23). *)
From Verif Require Import Base Types DbTable PduWireSpec Address AddressSpec SArray SArraySpec Asn1 Resources
  ResourcesSpec Roa.

(** The VRP that one address of a ROA announces (RFC 6482 3.3). *)
Definition announces (asn : Z) (fam : family) (a : roa_addr) (v : vrp) : Prop :=
  denotes (width fam) (ra_address a) (v_addr v) (v_len v) /\
  v_fam v = fam /\ v_asn v = asn /\
  v_max v = (match ra_max a with Some m => integer_value m | None => v_len v end) /\
  v_len v <= v_max v <= width fam.

Definition afi (fam : family) : list Z := match fam with AF_INET => [0; 1] | AF_INET6 => [0; 2] end.

(** The VRPs a ROA announces. *)
Definition roa_vrp (r : roa) (v : vrp) : Prop :=
  exists blocks b addrs a, roa_blocks r = Some blocks /\ In (Some b) blocks /\
    rb_family b = afi (v_fam v) /\ rb_addresses b = Some addrs /\ In a addrs /\
    announces (integer_value (roa_asid r)) (v_fam v) a v.

(** A ROA valid for an EE certificate holding [held4] and [held6]. *)
Definition allowed (held4 held6 : list (Z * Z)) (v : vrp) : Prop :=
  forall x, in_prefix (width (v_fam v)) (v_addr v) (v_len v) x ->
    covered (match v_fam v with AF_INET => held4 | AF_INET6 => held6 end) x.
Definition roa_valid (held4 held6 : list (Z * Z)) (r : roa) : Prop :=
  match roa_version r with None => True | Some v => integer_value v = 0 end /\
  integer_value (roa_asid r) < 2 ^ 32 /\
  exists blocks, roa_blocks r = Some blocks /\
    forall ob, In ob blocks -> exists b fam addrs, ob = Some b /\ rb_family b = afi fam /\
      rb_addresses b = Some addrs /\
      forall a, In a addrs -> exists v, announces (integer_value (roa_asid r)) fam a v /\ allowed held4 held6 v.

(** Well-formed decoder output, without negative numbers. *)
Definition natural (i : list Z) : Prop := integer_ok i /\ 0 <= integer_value i.
Definition roa_addr_ok (a : roa_addr) : Prop :=
  bit_string_ok (ra_address a) /\ match ra_max a with Some m => natural m | None => True end.
Definition roa_ok (r : roa) : Prop :=
  natural (roa_asid r) /\ match roa_version r with Some v => natural v | None => True end /\
  forall blocks b addrs, roa_blocks r = Some blocks -> In (Some b) blocks -> rb_addresses b = Some addrs ->
    Forall roa_addr_ok addrs.

(** INTEGERs read as unsigned: a zero octet in front changes nothing for a
    natural number. *)
Definition unsigned_addr (a : roa_addr) : roa_addr := {| ra_address := ra_address a; ra_max := option_map (cons 0) (ra_max a) |}.
Definition unsigned_block (b : roa_block) : roa_block :=
  {| rb_family := rb_family b; rb_addresses := option_map (map unsigned_addr) (rb_addresses b) |}.
Definition unsigned (r : roa) : roa :=
  {| roa_version := option_map (cons 0) (roa_version r); roa_asid := 0 :: roa_asid r;
     roa_blocks := option_map (map (option_map unsigned_block)) (roa_blocks r) |}.
(** The bytes of the INTEGERs and bit strings of a ROA. *)
Definition roa_of_bytes (r : roa) : Prop :=
  Forall is_byte (roa_asid r) /\ match roa_version r with Some v => Forall is_byte v | None => True end /\
  forall blocks b addrs a, roa_blocks r = Some blocks -> In (Some b) blocks -> rb_addresses b = Some addrs -> In a addrs ->
    bit_string_ok (ra_address a) /\ match ra_max a with Some m => Forall is_byte m | None => True end.
