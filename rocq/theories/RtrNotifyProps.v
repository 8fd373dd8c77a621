(** C82: notifications, and the list of clients. *)
From Verif Require Import Base RtrNotify RtrNotifySpec RtrNotifyProofs.
Notation length := List.length.

(** C82: if clients weren't added while others are being notified, then, whatever
    comes and goes, and however many there are: each notification goes once to each of
    the clients there are, and to nobody else; no memory is misused; and between
    operations the array holds the clients that came and haven't left, in order. *)
Theorem C82_notify_partial : forall ops ts o,
  exclusive (start ops) ts -> exec (start ops) ts = Some o ->
  exists s, o = Ok s /\ Forall (fun r => snd r = fst r) (rounds s) /\
    (adder s = A_Idle -> exists past, ops = past ++ todo s /\ clients_ s = present past /\ contents s = Some (map Some (present past))).
Proof.
  intros ops ts o X H. destruct (exec_inv _ _ _ _ (inv_start ops) X H) as (s & -> & [Va Vn Vp Vr (past & Eo & Ec)]). exists s. split; [reflexivity|]. split; [exact Vr|].
  intros A. exists past. rewrite A in Eo. split; [exact Eo|]. split; [exact Ec|]. unfold at_adder in Va. rewrite A in Va. unfold contents.
  destruct Va as [(En & El & Ecs)|(b & Eb & El & bl & Hb & Lb & Lc & F)]; [rewrite En, El, <- Ec, Ecs; reflexivity|].
  rewrite Eb, Hb, El. destruct (Nat.leb_spec (length (clients_ s)) (length bl)); [|lia]. rewrite F, Ec. reflexivity.
Qed.
Print Assumptions C82_notify_partial.

Definition adds (n : nat) : list turn := repeat Poll_thread n.
(** Nine clients come (so the array grows), the even ones leave, and the rest are
    notified. *)
Definition nine : list op := map (fun n => Add (Z.of_nat n)) (seq 4 9) ++ [Keep Z.odd].
Example C82_example : exclusive (start nine) (adds 51 ++ repeat Validation_thread 12) /\
  match exec (start nine) (adds 51 ++ repeat Validation_thread 12) with Some (Ok s) => rounds s = [([5; 7; 9; 11], [5; 7; 9; 11])] | _ => False end.
Proof. split; [vm_compute; repeat (split; [reflexivity|]); exact I|vm_compute; reflexivity]. Qed.

(** But the poll thread adds clients without the lock.  There is a client in the
    list; as the next one is added, [len] is 2 before the pointer is stored, and the
    other thread follows what there was in memory. *)
Theorem C82_uninitialised_refuted : exec (start [Add 4; Add 5]) (adds 9 ++ repeat Validation_thread 6) = Some UB.
Proof. vm_compute. reflexivity. Qed.
Print Assumptions C82_uninitialised_refuted.
(** And as the eighth one is added, the array is moved while the other thread goes
    through it. *)
Theorem C82_freed_refuted : exec (start (map Add [4; 5; 6; 7; 8; 9; 10; 11])) (adds 36 ++ repeat Validation_thread 3 ++ adds 6 ++ [Validation_thread]) = Some UB.
Proof. vm_compute. reflexivity. Qed.
Print Assumptions C82_freed_refuted.
