(** Property theorem C26: any number of workers and tasks and any schedule. *)
From Verif Require Import Base BlockingQueue ThreadPool ThreadPool_spec ThreadPool_proofs.

(** C26.  At all times every task submitted has run, is running, or waits in a queue - once. *)
Theorem C26_no_task_lost_or_invented : forall (T : Type) threads (p : pool T) submitted,
  (0 < threads)%nat -> pool_execution threads p submitted ->
  Permutation (executed p ++ flat_map running (workers p) ++ concat (queues p)) submitted.
Proof. exact @tasks_kept. Qed.
Print Assumptions C26_no_task_lost_or_invented.
(** Once all workers have finished (the destructor has joined them) every task has run exactly once. *)
Theorem C26_every_task_once : forall (T : Type) threads (p : pool T) submitted,
  (0 < threads)%nat -> pool_execution threads p submitted -> all_finished p -> Permutation (executed p) submitted.
Proof. exact @every_task_once. Qed.
Print Assumptions C26_every_task_once.
(** The destructor terminates: when the queues are closed no unfinished worker is stuck, and from
    any state the workers can take only so many steps. *)
Theorem C26_no_deadlock : forall (T : Type) threads (p : pool T) submitted i w success,
  (0 < threads)%nat -> pool_execution threads p submitted -> destroyed p ->
  nth_error (workers p) i = Some w -> w <> Finished -> work p i success <> None.
Proof. exact @can_act. Qed.
Print Assumptions C26_no_deadlock.
Theorem C26_workers_terminate : forall (T : Type) threads (p : pool T) submitted,
  (0 < threads)%nat -> pool_execution threads p submitted ->
  exists bound, forall l p', run_workers p l = Some p' -> (length l <= bound)%nat.
Proof. intros T threads p submitted H0 H. exists (measure p). intros l p' E. pose proof (acts_boundedly threads l p submitted p' H0 H E). lia. Qed.
Print Assumptions C26_workers_terminate.
(** Any submission is accepted, unless the pool has no threads; then it is undefined. *)
Theorem C26_submission_accepted : forall (T : Type) threads (p : pool T) submitted t busy,
  pool_execution threads p submitted -> (0 < threads)%nat -> exists p', enqueue p t busy = Ret p'.
Proof.
  intros T threads p submitted t busy H H0. destruct (execution_pinv threads p submitted H0 H). unfold enqueue, size. rewrite pi_queues.
  destruct threads; [lia|]. cbn. eauto.
Qed.
Print Assumptions C26_submission_accepted.
Theorem C26_without_threads : forall (T : Type) (t : T) busy, enqueue (new_pool 0) t busy = UB.
Proof. reflexivity. Qed.
Print Assumptions C26_without_threads.
(** Two workers, three tasks, a taken lock; all finish. *)
Example C26_case : exists p, pool_execution 2 p [5; 6; 7] /\ destroyed p /\ all_finished p /\ executed p = [6; 5; 7].
Proof.
  set (p0 := mk_pool [[5]; [6; 7]] [false; false] [Searching 0; Searching 0] 3 []).
  assert (H : pool_execution 2 p0 [5; 6; 7]).
  { eapply (pe_enqueue 2 _ [5; 6] 7 (fun n => Nat.ltb n 1)); [eapply (pe_enqueue 2 _ [5] 6 (fun _ => false)); [eapply (pe_enqueue 2 _ [] 5 (fun _ => false)); [constructor|repeat constructor|reflexivity]|repeat constructor|reflexivity]|repeat constructor|vm_compute; reflexivity]. }
  apply (pe_stop 2 _ _ 0) in H. apply (pe_stop 2 _ _ 1) in H. eexists. split; [|split; [|split]].
  - eapply (steps_execution 2 [(0, true); (1, true); (1, true); (0, true); (0, false); (0, true); (0, true); (0, true); (0, true); (0, true); (0, true); (0, true); (0, true); (1, true); (1, true); (1, true); (1, true); (1, true); (1, true)]%nat); [exact H|vm_compute; reflexivity].
  - repeat constructor.
  - repeat constructor.
  - reflexivity.
Qed.
