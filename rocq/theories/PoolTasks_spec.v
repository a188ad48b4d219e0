(** Specification: pools whose tasks submit tasks, also while the pool is destroyed. *)
From Verif Require Import Base BlockingQueue ThreadPool ThreadPool_spec.

Section Spec.
Context {T : Type}.
(** Whether somebody other than worker [i] can be holding the lock of queue [k]: the queue has not been closed (so that other threads may use
    it, or the destructor be closing it), another worker is taking from it, or another worker runs a task, which may be submitting tasks. *)
Definition taken (p : pool T) (i k : nat) : Prop :=
  nth k (stopped p) false = false \/
  exists j w, j <> i /\ nth_error (workers p) j = Some w /\
    match w with
    | Searching n => (n < attempts p)%nat /\ ((j + n) mod size p = k)%nat
    | Blocked => j = k
    | Running _ => True
    | Finished => False
    end.
(** [pool_life spurious threads p submitted]: a pool can be in state [p] when the tasks [submitted] have been submitted, by other threads until
    the destructor starts closing queues, and by tasks at any time.  Attempts to lock fail only if the lock is taken, or also otherwise
    ([spurious]). *)
Inductive pool_life (spurious : bool) (threads : nat) : pool T -> list T -> Prop :=
| pl_new : pool_life spurious threads (new_pool threads) []
| pl_submit p submitted t busy p' : pool_life spurious threads p submitted ->
    Forall (fun c => c = false) (stopped p) \/ (exists j u, nth_error (workers p) j = Some (Running u)) ->
    enqueue p t busy = Ret p' -> pool_life spurious threads p' (submitted ++ [t])
| pl_stop p submitted k : pool_life spurious threads p submitted -> pool_life spurious threads (stop p k) submitted
| pl_work p submitted i success p' : pool_life spurious threads p submitted -> work p i success = Some p' ->
    (success = false -> spurious = true \/ forall n, nth_error (workers p) i = Some (Searching n) -> taken p i ((i + n) mod size p)%nat) ->
    pool_life spurious threads p' submitted.
End Spec.
