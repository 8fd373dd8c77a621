(** C20: resource sets stay sorted, disjoint and non-adjacent, and membership
    is exact. *)
From Verif Require Import Base BaseLemmas PduWireSpec Address AddressSpec AddressProofs SArray SArraySpec SArrayProofs.

Lemma run_history_adds {A Op} (cmp : A -> A -> sacmp) (step : sarray A -> Op -> res (sarray A * Z)) elem ops :
  (forall s o, step s o = sarray_add cmp s (elem o)) ->
  run_history step (sarray_create A) ops = run_adds cmp (map elem ops).
Proof.
  intros E. unfold run_history, run_adds. generalize (Ok (sarray_create A)).
  induction ops as [|o ops IH]; intros r; cbn [fold_left map]; [reflexivity|].
  rewrite <- IH. f_equal. destruct r; cbn [bind]; rewrite ?E; reflexivity.
Qed.

(** AS numbers.  Whatever the history of additions, the set holds exactly the
    ranges that could follow the ones before them, it is sorted with gaps, and
    a query is answered (no crash, no endless loop) with the truth. *)
Theorem C20_asn ops :
  Forall (range_ok (2 ^ 32)) ops -> Z.of_nat (length ops) < 2 ^ 31 ->
  exists s,
    run_history rasn_add rasn_create ops = Ok s /\
    kept ops (sa_elems s) /\ sorted_with_gaps (sa_elems s) /\
    forall q, range_ok (2 ^ 32) q ->
      exists b, rasn_contains (Some s) q = Ok b /\
        (b = true <-> forall x, fst q <= x <= snd q -> covered (sa_elems s) x).
Proof.
  intros OK LEN.
  destruct (run_adds_spec asn_cmp (fun r => r) (range_ok (2 ^ 32)) u32_cmp_num range_ok_num ops OK LEN)
    as [s [R [I K]]].
  rewrite !map_id in K.
  exists s. unfold rasn_create. rewrite (run_history_adds asn_cmp rasn_add (fun r => r)) by reflexivity.
  rewrite map_id. split; auto. split; auto.
  pose proof I as I0. destruct I as [I1 [I2 _]]. rewrite map_id in I2. split; auto.
  intros q Q.
  assert (CNT : sa_count s < 2 ^ 31).
  { pose proof (kept_length _ _ K). unfold sa_count. lia. }
  destruct (contains_spec asn_cmp (fun r => r) (range_ok (2 ^ 32)) u32_cmp_num range_ok_num s q I0 Q CNT)
    as [b [E C]].
  rewrite map_id in C. exists b. split; auto.
Qed.

(** IPv4.  [sa_elems] are pairs (min, max) of host order addresses. *)
Definition step4 (s : resources_ipv4) (o : op4) : res (resources_ipv4 * Z) :=
  match o with
  | Prefix4 a l => res4_add_prefix s (a, l)
  | Range4 a b => res4_add_range s (a, b)
  end.
Theorem C20_ipv4 ops :
  Forall op4_ok ops -> Z.of_nat (length ops) < 2 ^ 31 ->
  exists s,
    run_history step4 res4_create ops = Ok s /\
    kept (map op4_range ops) (sa_elems s) /\ sorted_with_gaps (sa_elems s) /\
    (forall a l, prefix_ok 32 a l ->
      exists b, res4_contains_prefix (Some s) (a, l) = Ok b /\
        (b = true <-> forall x, in_prefix 32 a l x -> covered (sa_elems s) x)) /\
    (forall lo hi, range_ok (2 ^ 32) (lo, hi) ->
      exists b, res4_contains_range (Some s) (lo, hi) = Ok b /\
        (b = true <-> forall x, lo <= x <= hi -> covered (sa_elems s) x)).
Proof.
  intros OK LEN.
  pose (elem := fun o => match o with Prefix4 a l => pton (a, l) | Range4 a b => (a, b) end).
  assert (EQ : map elem ops = map op4_range ops).
  { apply map_ext_in. intros o IN. rewrite Forall_forall in OK. specialize (OK o IN).
    destruct o; cbn [elem op4_range op4_ok] in *; auto. apply (pton_range addr len OK). }
  assert (OKE : Forall (range_ok (2 ^ 32)) (map op4_range ops)).
  { apply Forall_map. rewrite Forall_forall in *. intros o IN. specialize (OK o IN).
    destruct o; cbn [op4_range op4_ok] in *; auto. apply (pton_range addr len OK). }
  destruct (run_adds_spec r4_cmp (fun r => r) (range_ok (2 ^ 32)) u32_cmp_num range_ok_num (map op4_range ops))
    as [s [R [I K]]]; auto; [rewrite map_length; auto|].
  rewrite !map_id in K. exists s. unfold res4_create.
  rewrite (run_history_adds r4_cmp step4 elem) by (intros s0 []; reflexivity).
  rewrite EQ. split; auto. split; auto.
  pose proof I as I0. destruct I as [I1 [I2 _]]. rewrite map_id in I2. split; auto.
  assert (CNT : sa_count s < 2 ^ 31).
  { pose proof (kept_length _ _ K) as KL. rewrite map_length in KL. unfold sa_count. lia. }
  pose proof (fun q Q => contains_spec r4_cmp (fun r => r) (range_ok (2 ^ 32)) u32_cmp_num range_ok_num s q I0 Q CNT) as C.
  rewrite map_id in C. split.
  - intros a l P. destruct (pton_range a l P) as [PE PR].
    destruct (C _ PR) as [b [E B]]. exists b. unfold res4_contains_prefix. rewrite PE. split; auto.
    rewrite B. unfold subset. destruct P as [P1 [P2 P3]].
    split; intros H x IN; apply H.
    + apply in_prefix_range in IN; auto. unfold prefix_range; cbn [fst snd]. cbv zeta in IN.
      assert (D : a = 2 ^ (32 - l) * (a / 2 ^ (32 - l))) by (apply Z_div_exact_full_2; lia).
      lia.
    + apply in_prefix_range; auto. unfold prefix_range in IN; cbn [fst snd] in IN.
      assert (D : a = 2 ^ (32 - l) * (a / 2 ^ (32 - l))) by (apply Z_div_exact_full_2; lia).
      lia.
  - intros lo hi Q. destruct (C _ Q) as [b [E B]]. exists b. split; auto.
Qed.

(** IPv6.  The addresses are byte strings; [be] is the number they denote. *)
Definition step6 (s : resources_ipv6) (o : op6) : res (resources_ipv6 * Z) :=
  match o with
  | Prefix6 a l => res6_add_prefix s (a, l)
  | Range6 a b => res6_add_range s (a, b)
  end.
Theorem C20_ipv6 ops :
  Forall op6_ok ops -> Z.of_nat (length ops) < 2 ^ 31 ->
  exists s,
    run_history step6 res6_create ops = Ok s /\
    let content := map (fun r => (be (fst r), be (snd r))) (sa_elems s) in
    kept (map op6_range ops) content /\ sorted_with_gaps content /\
    (forall a l, addr6_ok a -> prefix_ok 128 (be a) l ->
      exists b, res6_contains_prefix (Some s) (a, l) = Ok b /\
        (b = true <-> forall x, in_prefix 128 (be a) l x -> covered content x)) /\
    (forall lo hi, range6_ok (lo, hi) ->
      exists b, res6_contains_range (Some s) (lo, hi) = Ok b /\
        (b = true <-> forall x, be lo <= x <= be hi -> covered content x)).
Proof.
  intros OK LEN.
  pose (elem := fun o => match o with Prefix6 a l => ptor (a, l) | Range6 a b => (a, b) end).
  assert (EQ : map num6 (map elem ops) = map op6_range ops).
  { rewrite map_map. apply map_ext_in. intros o IN. rewrite Forall_forall in OK. specialize (OK o IN).
    destruct o; cbn [elem op6_range op6_ok] in *; auto. destruct OK as [O1 O2].
    apply (ptor_range addr len O1 O2). }
  assert (OKE : Forall range6_ok (map elem ops)).
  { apply Forall_map. rewrite Forall_forall in *. intros o IN. specialize (OK o IN).
    destruct o; cbn [elem op6_ok] in *; auto. destruct OK as [O1 O2]. apply (ptor_range addr len O1 O2). }
  destruct (run_adds_spec r6_cmp num6 range6_ok r6_cmp_num range6_ok_num (map elem ops))
    as [s [R [I K]]]; auto; [rewrite map_length; auto|].
  exists s. unfold res6_create.
  rewrite (run_history_adds r6_cmp step6 elem) by (intros s0 []; reflexivity).
  split; auto. cbv zeta. change (fun r => (be (fst r), be (snd r))) with num6.
  rewrite EQ in K. split; auto.
  pose proof I as I0. destruct I as [I1 [I2 _]]. split; auto.
  assert (CNT : sa_count s < 2 ^ 31).
  { pose proof (kept_length _ _ K) as KL. rewrite !map_length in KL. unfold sa_count. lia. }
  pose proof (fun q Q => contains_spec r6_cmp num6 range6_ok r6_cmp_num range6_ok_num s q I0 Q CNT) as C.
  split.
  - intros a l A P. destruct (ptor_range a l A P) as [PR PE].
    destruct (C _ PR) as [b [E B]]. exists b. unfold res6_contains_prefix. split; auto.
    rewrite B, PE. unfold subset. destruct P as [P1 [P2 P3]].
    split; intros H x IN; apply H.
    + apply in_prefix_range in IN; auto. unfold prefix_range; cbn [fst snd]. cbv zeta in IN.
      assert (D : be a = 2 ^ (128 - l) * (be a / 2 ^ (128 - l))) by (apply Z_div_exact_full_2; lia).
      lia.
    + apply in_prefix_range; auto. unfold prefix_range in IN; cbn [fst snd] in IN.
      assert (D : be a = 2 ^ (128 - l) * (be a / 2 ^ (128 - l))) by (apply Z_div_exact_full_2; lia).
      lia.
  - intros lo hi Q. destruct (C _ Q) as [b [E B]]. exists b. split; auto.
Qed.

(** A certificate without resources of a family owns none of them. *)
Theorem C20_absent : forall r p r4 p6 r6,
  rasn_contains None r = Ok false /\ res4_contains_prefix None p = Ok false /\
  res4_contains_range None r4 = Ok false /\ res6_contains_prefix None p6 = Ok false /\
  res6_contains_range None r6 = Ok false.
Proof. intros; repeat split. Qed.

(** Concrete histories meeting the hypotheses. *)
Example C20_example_asn :
  let ops := [(10, 20); (21, 30); (15, 40); (22, 22); (5, 6); (4294967295, 4294967295)] in
  Forall (range_ok (2 ^ 32)) ops /\
  match run_history rasn_add rasn_create ops with
  | Ok s => sa_elems s = [(10, 20); (22, 22); (4294967295, 4294967295)] /\
            rasn_contains (Some s) (11, 20) = Ok true /\ rasn_contains (Some s) (20, 22) = Ok false /\
            rasn_contains (Some s) (4294967295, 4294967295) = Ok true
  | _ => False
  end.
Proof. split; [repeat constructor; cbn; lia|vm_compute; repeat split]. Qed.
Example C20_example_ipv4 :
  let ops := [Prefix4 167772160 8; Range4 184549376 184549380; Range4 184549382 184549382] in
  Forall op4_ok ops /\
  match run_history step4 res4_create ops with
  | Ok s => sa_elems s = [(167772160, 184549375); (184549382, 184549382)] /\
            res4_contains_prefix (Some s) (167837696, 16) = Ok true
  | _ => False
  end.
Proof. split; [repeat constructor; cbn; lia|vm_compute; repeat split]. Qed.
Example C20_example_ipv6 :
  let a := 32 :: 1 :: 13 :: 184 :: repeat 0 12 in
  let ops := [Prefix6 a 32; Range6 (32 :: 1 :: 13 :: 185 :: repeat 0 12) (32 :: 1 :: 13 :: 186 :: repeat 0 12);
              Prefix6 (32 :: 1 :: 13 :: 186 :: repeat 0 12) 48] in
  Forall op6_ok ops /\
  match run_history step6 res6_create ops with
  | Ok s => length (sa_elems s) = 2%nat /\ res6_contains_prefix (Some s) (a, 64) = Ok true /\
            res6_contains_prefix (Some s) (a, 31) = Ok false
  | _ => False
  end.
Proof.
  split.
  - repeat (apply Forall_cons || apply Forall_nil); cbn [op6_ok]; unfold addr6_ok, range6_ok, prefix_ok, addr6_ok;
    cbn [fst snd repeat app length];
    repeat split; try (repeat constructor; unfold is_byte; lia); vm_compute; try reflexivity; try discriminate.
  - vm_compute; repeat split.
Qed.
Print Assumptions C20_ipv6.
