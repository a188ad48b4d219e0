(** Property theorems C214 and C215: tasks that submit tasks, also while the pool is destroyed; pools asked for no threads. *)
From Verif Require Import Base BlockingQueue ThreadPool ThreadPool_spec ThreadPool_proofs PoolTasks_spec PoolTasks_proofs.

(** C214.  Once all workers have finished every task has been executed exactly once, those submitted by tasks too and whenever they were
    submitted, if attempts to lock a queue fail only while somebody else can be holding its lock. *)
Theorem C214_every_task_once : forall (T : Type) threads (p : pool T) submitted,
  (0 < threads)%nat -> pool_life false threads p submitted -> all_finished p -> Permutation (executed p) submitted.
Proof. exact @life_all_run. Qed.
Print Assumptions C214_every_task_once.
(** At all times, however attempts to lock fail, a task has been executed, is running or waits in a queue - once. *)
Theorem C214_no_task_lost_or_invented : forall (T : Type) spurious threads (p : pool T) submitted,
  (0 < threads)%nat -> pool_life spurious threads p submitted ->
  Permutation (executed p ++ flat_map running (workers p) ++ concat (queues p)) submitted.
Proof. intros T spurious threads p submitted H0 H. exact (li_tasks _ _ _ _ (life_linv spurious threads p submitted H0 H)). Qed.
Print Assumptions C214_no_task_lost_or_invented.
(** The destructor terminates unless tasks go on submitting tasks: no unfinished worker is stuck, and the workers can take only so many
    steps without a further submission. *)
Theorem C214_no_deadlock : forall (T : Type) spurious threads (p : pool T) submitted i w success,
  (0 < threads)%nat -> pool_life spurious threads p submitted -> destroyed p ->
  nth_error (workers p) i = Some w -> w <> Finished -> work p i success <> None.
Proof. exact @life_can_act. Qed.
Print Assumptions C214_no_deadlock.
Theorem C214_workers_terminate : forall (T : Type) spurious threads (p : pool T) submitted,
  (0 < threads)%nat -> pool_life spurious threads p submitted ->
  exists bound, forall l p', run_workers p l = Some p' -> (length l <= bound)%nat.
Proof.
  intros T spurious threads p submitted H0 H. destruct (life_linv _ _ _ _ H0 H). exists (measure p). intros l p' E.
  pose proof (sizes_boundedly threads l p p' H0 li_queues li_workers E). lia.
Qed.
Print Assumptions C214_workers_terminate.
(** A task's submission is accepted at any time. *)
Theorem C214_submission_accepted : forall (T : Type) spurious threads (p : pool T) submitted t busy,
  (0 < threads)%nat -> pool_life spurious threads p submitted -> exists p', enqueue p t busy = Ret p'.
Proof.
  intros T spurious threads p submitted t busy H0 H. destruct (life_linv _ _ _ _ H0 H). unfold enqueue, size. rewrite li_queues. destruct threads; [lia|]. cbn. eauto.
Qed.
Print Assumptions C214_submission_accepted.

(** Two workers.  Task 5 runs on worker 0 while the pool is destroyed and worker 1 finishes; then it submits 6 and 7, the latter to the
    queue of worker 1, and both are executed. *)
Definition busy_pool : pool Z := mk_pool [[]; []] [true; true] [Running 5; Finished] 1 [].
Lemma busy_pool_life spurious : pool_life spurious 2 busy_pool [5].
Proof.
  assert (H : pool_life spurious 2 (mk_pool [[5]; []] [false; false] [Searching 0; Searching 0] 1 []) [5]).
  { eapply (pl_submit spurious 2 _ [] 5 (fun _ => false)); [constructor|left; repeat constructor|reflexivity]. }
  apply (pl_work spurious 2 _ _ 0 true (mk_pool [[]; []] [false; false] [Running 5; Searching 0] 1 [])) in H; [|reflexivity|discriminate].
  apply (pl_stop spurious 2 _ _ 0) in H. apply (pl_stop spurious 2 _ _ 1) in H.
  do 6 (eapply (pl_work spurious 2 _ _ 1 true) in H; [|cbv; reflexivity|discriminate]). exact H.
Qed.
Example C214_case : exists p, pool_life false 2 p [5; 6; 7] /\ all_finished p /\ executed p = [5; 7; 6].
Proof.
  pose proof (busy_pool_life false) as H.
  eapply (pl_submit false 2 _ _ 6 (fun _ => false)) in H; [|right; exists 0%nat, 5; reflexivity|vm_compute; reflexivity].
  eapply (pl_submit false 2 _ _ 7 (fun _ => false)) in H; [|right; exists 0%nat, 5; reflexivity|vm_compute; reflexivity].
  eexists. split; [|split].
  - eapply (life_steps_free 2 (repeat 0%nat 12)); [exact H|vm_compute; reflexivity].
  - repeat constructor.
  - reflexivity.
Qed.
(** If an attempt to lock can fail though nobody holds the lock, a task submitted by a task during destruction can be lost: worker 0 misses
    task 6 in the queue of worker 1, which has finished. *)
Theorem C214_spurious_failures : exists p : pool Z, pool_life true 2 p [5; 6] /\ all_finished p /\ executed p = [5] /\ concat (queues p) = [6].
Proof.
  pose proof (busy_pool_life true) as H.
  eapply (pl_submit true 2 _ _ 6 (fun _ => false)) in H; [|right; exists 0%nat, 5; reflexivity|vm_compute; reflexivity].
  eexists. split; [|split; [|split]].
  - eapply (life_steps 2 [(0, true); (0, true); (0, false); (0, true); (0, false); (0, true); (0, true)]%nat); [exact H|vm_compute; reflexivity].
  - repeat constructor.
  - reflexivity.
  - reflexivity.
Qed.
Print Assumptions C214_spurious_failures.

(** C215.  A pool asked for no threads starts a worker at least, and the first two actions of it lead to undefined behaviour, and so does any submission. *)
Theorem C215_refuted : forall (T : Type) hardware (b : bool), exists p : pool T,
  (0 < length (workers p))%nat /\ run_workers (construct 0 hardware) [(0%nat, b)] = Some p /\ oversteps p 0 = true /\
  forall (t : T) busy, enqueue (construct 0 hardware) t busy = UB.
Proof.
  intros T hardware b. exists (mk_pool [] [] (Blocked :: repeat (Searching 0) (pred hardware)) 0 []). split; [cbn; lia|]. unfold construct. destruct hardware as [|h]; auto.
Qed.
Print Assumptions C215_refuted.
(** Otherwise the pool has the number of threads asked for, whatever the hardware, and no worker oversteps, ever. *)
Theorem C215_otherwise : forall (T : Type) threads hardware, (0 < threads)%nat ->
  @construct T threads hardware = new_pool threads /\
  forall spurious (p : pool T) submitted i, pool_life spurious threads p submitted -> length (workers p) = threads /\ oversteps p i = false.
Proof.
  intros T threads hardware H0. split; [unfold construct; destruct threads; [lia|reflexivity]|]. intros spurious p submitted i H. destruct (life_linv _ _ _ _ H0 H).
  split; [assumption|]. unfold oversteps, size. destruct (nth_error (workers p) i) as [[]|] eqn:E; auto. assert (i < length (workers p))%nat by (apply nth_error_Some; congruence). apply Nat.leb_gt. lia.
Qed.
Print Assumptions C215_otherwise.
Example C215_case : length (workers (@construct Z 0 4)) = 4%nat /\ length (queues (@construct Z 0 4)) = 0%nat /\ length (workers (@construct Z 3 4)) = 3%nat /\ oversteps busy_pool 0 = false.
Proof. repeat split. Qed.

(** C216.  With one worker tasks are executed in the order of their submission: those executed, the one running and those waiting make up
    all tasks submitted, in order; and once the worker has finished all have been executed, however attempts to lock fail. *)
Theorem C216_in_order : forall (T : Type) spurious (p : pool T) submitted, pool_life spurious 1 p submitted ->
  executed p ++ flat_map running (workers p) ++ concat (queues p) = submitted.
Proof.
  intros T spurious p submitted H. destruct (one_in_order spurious p submitted H) as (q & c & w & -> & _ & -> & E & _). cbn. rewrite !app_nil_r. exact E.
Qed.
Print Assumptions C216_in_order.
Theorem C216_all : forall (T : Type) spurious (p : pool T) submitted, pool_life spurious 1 p submitted -> all_finished p -> executed p = submitted.
Proof.
  intros T spurious p submitted H F. destruct (one_in_order spurious p submitted H) as (q & c & w & _ & _ & Ew & E & K). unfold all_finished in F. rewrite Ew in F. inversion F as [|? ? -> _]; subst.
  destruct (K eq_refl) as [_ ->]. cbn. now rewrite app_nil_r.
Qed.
Print Assumptions C216_all.
(** One worker: task 5 submits 6 while 7 waits already, during destruction and after failures to lock. *)
Example C216_case : exists p, pool_life true 1 p [5; 7; 6] /\ all_finished p /\ executed p = [5; 7; 6].
Proof.
  assert (H : pool_life true 1 (mk_pool [[5]] [false] [Searching 0] 1 []) [5]).
  { eapply (pl_submit true 1 _ [] 5 (fun _ => false)); [constructor|left; repeat constructor|reflexivity]. }
  eapply (pl_work true 1 _ _ 0 true) in H; [|vm_compute; reflexivity|discriminate].
  eapply (pl_submit true 1 _ _ 7 (fun _ => true)) in H; [|left; repeat constructor|vm_compute; reflexivity].
  apply (pl_stop true 1 _ _ 0) in H.
  eapply (pl_submit true 1 _ _ 6 (fun _ => false)) in H; [|right; exists 0%nat, 5; reflexivity|vm_compute; reflexivity].
  eexists. split; [|split].
  - eapply (life_steps 1 [(0, true); (0, false); (0, false); (0, true); (0, true); (0, true); (0, true); (0, true); (0, true); (0, true); (0, true); (0, true)]%nat); [exact H|vm_compute; reflexivity].
  - repeat constructor.
  - reflexivity.
Qed.

(** C217.  A task can wait although a worker is idle: worker 1 sleeps on its own queue and is not woken for task 7, which waits in the queue of
    worker 0, busy with task 5. *)
Theorem C217_refuted : exists p : pool Z, pool_life false 2 p [5; 6; 7] /\ stopped p = [false; false] /\ workers p = [Running 5; Blocked] /\ queues p = [[7]; []] /\
  forall success, work p 1 success = None.
Proof.
  assert (H : pool_life false 2 (mk_pool [[5]; []] [false; false] [Searching 0; Searching 0] 1 []) [5]).
  { eapply (pl_submit false 2 _ [] 5 (fun _ => false)); [constructor|left; repeat constructor|reflexivity]. }
  eapply (pl_work false 2 _ _ 0 true) in H; [|vm_compute; reflexivity|discriminate].
  eapply (pl_submit false 2 _ _ 6 (fun _ => false)) in H; [|left; repeat constructor|vm_compute; reflexivity].
  eapply (life_steps_free 2 (repeat 1%nat 7)) in H; [|vm_compute; reflexivity].
  eapply (pl_submit false 2 _ _ 7 (fun _ => false)) in H; [|left; repeat constructor|vm_compute; reflexivity].
  eexists. split; [exact H|]. repeat split.
Qed.
Print Assumptions C217_refuted.
(** But the worker to whose queue a task was added is not idle: until the destructor closes the queues it can act whenever a task waits there, and
    so can everybody who runs a task. *)
Theorem C217_served : forall (T : Type) spurious threads (p : pool T) submitted k success, (0 < threads)%nat -> pool_life spurious threads p submitted ->
  nth k (stopped p) false = false -> nth k (queues p) [] <> [] -> work p k success <> None.
Proof. exact @life_served. Qed.
Print Assumptions C217_served.
Example C217_case : let p := mk_pool [[7]; []] [false; false] [Running 5; Blocked] 3 [6] in work p 0 true <> None /\ run_workers p [(0, true); (0, true)]%nat = Some (mk_pool [[]; []] [false; false] [Running 7; Blocked] 3 [6; 5]).
Proof. cbn. split; [discriminate|reflexivity]. Qed.
