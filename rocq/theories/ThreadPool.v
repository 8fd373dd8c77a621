(** The thread pool that runs RTR requests: any interleaving of its workers and
    the thread that owns it.

    Models src/thread/thread_pool.c.  One step is one statement (or one call of
    the threads library); the mutex and the two conditions are explicit.
    Simplified away: names and debug messages, [thread_count] (which only numbers
    the workers in messages), and memory (tasks are values). *)
From Coq Require Import List.
From Verif Require Import Base.

(** src/thread/thread_pool.c:25-34 [struct thread_pool_task]: callback and
    argument. *)
Definition task := Z.

(** Who holds the mutex. *)
Inductive who := Worker (i : nat) | Parent.

(** Where a worker is in src/thread/thread_pool.c:175-219 [tasks_poll]. *)
Inductive wpc :=
| W_Start                       (* l.181: mutex_lock *)
| W_Check                       (* l.187-191: in the loops, with the lock *)
| W_Sleep                       (* l.188: in pthread_cond_wait, without the lock *)
| W_Woken                       (* l.188: in pthread_cond_wait, waiting for the lock *)
| W_Claimed (t : option task)   (* l.196: mutex_unlock *)
| W_Run (t : option task)       (* l.198-203: running the task *)
| W_Ran                         (* l.205: mutex_lock *)
| W_After                       (* l.208-212, with the lock *)
| W_Leave                       (* l.215: mutex_unlock *)
| W_End.                        (* returned *)

(** What the parent does with the pool, in order.  Destroying it is the last. *)
Inductive op := Push (t : task) | Wait | Destroy.
(** Where the parent is. *)
Inductive ppc :=
| P_Idle                        (* between operations *)
| P_Push (t : task)             (* thread_pool_push: mutex_lock *)
| P_Pushing (t : task)          (* task_queue_push, with the lock *)
| P_Pushed                      (* mutex_unlock *)
| P_Signal                      (* signal_to_worker *)
| P_Wait                        (* thread_pool_wait: mutex_lock *)
| P_Check                       (* its loop, with the lock *)
| P_Sleep                       (* in pthread_cond_wait *)
| P_Woken                       (* in pthread_cond_wait, waiting for the lock *)
| P_Waited                      (* mutex_unlock *)
| P_Destroy                     (* thread_pool_destroy: mutex_lock *)
| P_Clear                       (* emptying the queue, with the lock *)
| P_Broadcast                   (* pthread_cond_broadcast *)
| P_Cleared                     (* mutex_unlock *)
| P_Join                        (* pthread_join, each *)
| P_End.                        (* the pool is gone *)

(** src/thread/thread_pool.c:39-79 [struct thread_pool], and the threads.  The
    queue's first is the newest.  The last four are history only: what was pushed,
    what was claimed and what has been run to the end, in order; and what was
    dropped when the pool was destroyed. *)
Record state := {
  workers : list wpc; parent : ppc; todo : list op;
  queue : list task; working : Z; stop : bool; lock : option who;
  pushed : list task; claimed : list task; finished : list task; dropped : list task }.

Definition set_workers (s : state) ws := {| workers := ws; parent := parent s; todo := todo s; queue := queue s; working := working s; stop := stop s; lock := lock s; pushed := pushed s; claimed := claimed s; finished := finished s; dropped := dropped s |}.
Definition set_parent (s : state) p := {| workers := workers s; parent := p; todo := todo s; queue := queue s; working := working s; stop := stop s; lock := lock s; pushed := pushed s; claimed := claimed s; finished := finished s; dropped := dropped s |}.
Definition set_todo (s : state) l := {| workers := workers s; parent := parent s; todo := l; queue := queue s; working := working s; stop := stop s; lock := lock s; pushed := pushed s; claimed := claimed s; finished := finished s; dropped := dropped s |}.
Definition set_lock (s : state) l := {| workers := workers s; parent := parent s; todo := todo s; queue := queue s; working := working s; stop := stop s; lock := l; pushed := pushed s; claimed := claimed s; finished := finished s; dropped := dropped s |}.
Definition set_working (s : state) n := {| workers := workers s; parent := parent s; todo := todo s; queue := queue s; working := n; stop := stop s; lock := lock s; pushed := pushed s; claimed := claimed s; finished := finished s; dropped := dropped s |}.
Definition set_finished (s : state) l := {| workers := workers s; parent := parent s; todo := todo s; queue := queue s; working := working s; stop := stop s; lock := lock s; pushed := pushed s; claimed := claimed s; finished := l; dropped := dropped s |}.

Definition mutex_lock (s : state) (w : who) : option state :=
  match lock s with None => Some (set_lock s (Some w)) | Some _ => None end.
Definition mutex_unlock (s : state) : state := set_lock s None.
Definition queue_empty (s : state) : bool := match queue s with [] => true | _ => false end.

(** The last of a list and the others. *)
Fixpoint split_last (l : list task) : option (list task * task) :=
  match l with
  | [] => None
  | x :: t => match split_last t with None => Some ([], x) | Some (l', y) => Some (x :: l', y) end
  end.
(** src/thread/thread_pool.c:138-154 [task_queue_pull]. *)
Definition task_queue_pull (s : state) : state * option task :=
  match split_last (queue s) with
  | None => (s, None)
  | Some (q, t) => ({| workers := workers s; parent := parent s; todo := todo s; queue := q; working := working s; stop := stop s; lock := lock s;
                       pushed := pushed s; claimed := claimed s ++ [t]; finished := finished s; dropped := dropped s |}, Some t)
  end.
(** src/thread/thread_pool.c:157-162 [task_queue_push]. *)
Definition task_queue_push (s : state) (t : task) : state :=
  {| workers := workers s; parent := parent s; todo := todo s; queue := t :: queue s; working := working s; stop := stop s; lock := lock s;
     pushed := pushed s ++ [t]; claimed := claimed s; finished := finished s; dropped := dropped s |}.
(** src/thread/thread_pool.c:91-96 [signal_to_parent]. *)
Definition signal_to_parent (s : state) : state :=
  match parent s with P_Sleep => set_parent s P_Woken | _ => s end.

(** src/thread/thread_pool.c:175-219 [tasks_poll]: the next statement of worker
    [i], which is at [pc]; [None]: it has to wait. *)
Definition worker_next (i : nat) (pc : wpc) (s : state) : option (state * wpc) :=
  match pc with
  | W_Start | W_Woken => option_map (fun s => (s, W_Check)) (mutex_lock s (Worker i))
  | W_Check =>
      if queue_empty s && negb (stop s) then Some (mutex_unlock s, W_Sleep)
      else if stop s then Some (s, W_Leave)
      else let '(s, t) := task_queue_pull s in Some (set_working s (wrap32 (working s + 1)), W_Claimed t)
  | W_Sleep => None
  | W_Claimed t => Some (mutex_unlock s, W_Run t)
  | W_Run t => Some (match t with Some t => set_finished s (finished s ++ [t]) | None => s end, W_Ran)
  | W_Ran => option_map (fun s => (set_working s (wrap32 (working s - 1)), W_After)) (mutex_lock s (Worker i))
  | W_After =>
      if stop s then Some (s, W_Leave)
      else Some (if (working s =? 0) && queue_empty s then signal_to_parent s else s, W_Check)
  | W_Leave => Some (mutex_unlock s, W_End)
  | W_End => None
  end.

(** pthread_cond_signal() on parent2worker wakes one or more of the sleeping
    workers, if any. *)
Definition woken (ws ws' : list wpc) : Prop :=
  Forall2 (fun a b => b = a \/ (a = W_Sleep /\ b = W_Woken)) ws ws' /\ (In W_Sleep ws -> ws' <> ws).
(** src/thread/thread_pool.c:105-110 [signal_to_worker]. *)
Definition signal_to_worker (s s' : state) : Prop := exists ws, woken (workers s) ws /\ s' = set_workers s ws.
Definition broadcast (s : state) : state :=
  set_workers s (map (fun w => match w with W_Sleep => W_Woken | _ => w end) (workers s)).

(** src/thread/thread_pool.c:347-363: emptying the queue, and the stop flag. *)
Definition clear_and_stop (s : state) : state :=
  {| workers := workers s; parent := parent s; todo := todo s; queue := []; working := working s; stop := true; lock := lock s;
     pushed := pushed s; claimed := claimed s; finished := finished s; dropped := dropped s ++ rev (queue s) |}.

(** The next statement of the parent: src/thread/thread_pool.c:386-405
    [thread_pool_push], 420-443 [thread_pool_wait], 347-379
    [thread_pool_destroy]. *)
Inductive parent_step : state -> state -> Prop :=
| ps_push s t l : parent s = P_Idle -> todo s = Push t :: l -> parent_step s (set_todo (set_parent s (P_Push t)) l)
| ps_wait s l : parent s = P_Idle -> todo s = Wait :: l -> parent_step s (set_todo (set_parent s P_Wait) l)
| ps_destroy s l : parent s = P_Idle -> todo s = Destroy :: l -> parent_step s (set_todo (set_parent s P_Destroy) l)
(* thread_pool_push *)
| ps_push_lock s t s1 : parent s = P_Push t -> mutex_lock s Parent = Some s1 -> parent_step s (set_parent s1 (P_Pushing t))
| ps_pushing s t : parent s = P_Pushing t -> parent_step s (set_parent (task_queue_push s t) P_Pushed)
| ps_pushed s : parent s = P_Pushed -> parent_step s (set_parent (mutex_unlock s) P_Signal)
| ps_signal s s1 : parent s = P_Signal -> signal_to_worker s s1 -> parent_step s (set_parent s1 P_Idle)
(* thread_pool_wait *)
| ps_wait_lock s s1 : parent s = P_Wait \/ parent s = P_Woken -> mutex_lock s Parent = Some s1 -> parent_step s (set_parent s1 P_Check)
| ps_check s : parent s = P_Check ->
    parent_step s (if stop s then set_parent s P_Waited
                   else if (working s =? 0) && queue_empty s then set_parent s P_Waited
                   else set_parent (mutex_unlock s) P_Sleep)
| ps_waited s : parent s = P_Waited -> parent_step s (set_parent (mutex_unlock s) P_Idle)
(* thread_pool_destroy *)
| ps_destroy_lock s s1 : parent s = P_Destroy -> mutex_lock s Parent = Some s1 -> parent_step s (set_parent s1 P_Clear)
| ps_clear s : parent s = P_Clear -> parent_step s (set_parent (clear_and_stop s) P_Broadcast)
| ps_broadcast s : parent s = P_Broadcast -> parent_step s (set_parent (broadcast s) P_Cleared)
| ps_cleared s : parent s = P_Cleared -> parent_step s (set_parent (mutex_unlock s) P_Join)
| ps_join s : parent s = P_Join -> Forall (fun w => w = W_End) (workers s) -> parent_step s (set_parent s P_End).

(** The threads, interleaved. *)
Inductive step : state -> state -> Prop :=
| st_worker s l pc r s1 pc' : workers s = l ++ pc :: r -> worker_next (length l) pc s = Some (s1, pc') ->
    step s (set_workers s1 (l ++ pc' :: r))
| st_parent s s1 : parent_step s s1 -> step s s1.
(** Spurious wakeups: pthread_cond_wait() may return any time. *)
Inductive spurious : state -> state -> Prop :=
| sp_worker s l r : workers s = l ++ W_Sleep :: r -> spurious s (set_workers s (l ++ W_Woken :: r))
| sp_parent s : parent s = P_Sleep -> spurious s (set_parent s P_Woken).
Definition any_step (s s' : state) : Prop := step s s' \/ spurious s s'.
Inductive steps (R : state -> state -> Prop) : state -> state -> Prop :=
| ss_nil s : steps R s s
| ss_step s s1 s2 : R s s1 -> steps R s1 s2 -> steps R s s2.

(** src/thread/thread_pool.c:290-348 [thread_pool_create]: all the threads have
    been created (though none may have run yet). *)
Definition created (threads : nat) (program : list op) : state :=
  {| workers := repeat W_Start threads; parent := P_Idle; todo := program; queue := []; working := 0; stop := false; lock := None;
     pushed := []; claimed := []; finished := []; dropped := [] |}.

(** src/thread/thread_pool.c:262-288 [spawn_threads]: [ok i]: whether the ith
    pthread_create() succeeds.  The threads created, and the error. *)
Fixpoint spawn_threads (n i : nat) (ok : nat -> bool) : list wpc * bool :=
  match n with
  | O => ([], true)
  | S n => if ok i then let '(ws, e) := spawn_threads n (S i) ok in (W_Start :: ws, e) else ([], false)
  end.
(** src/thread/thread_pool.c:290-348 [thread_pool_create]: whether the pool's
    memory is still there, and the threads that use it. *)
Definition thread_pool_create (n : nat) (ok : nat -> bool) : bool * list wpc :=
  let '(ws, good) := spawn_threads n 0 ok in (good, ws).
