(** Specification of the thread pool: its executions. *)
From Verif Require Import Base BlockingQueue ThreadPool.

(** [pool_execution threads p submitted]: a pool of that many threads can be in state [p] when the
    tasks [submitted] have been submitted in that order.  Tasks are submitted until the destructor
    starts closing queues; workers act in any order, with any try-locks failing. *)
Inductive pool_execution {T : Type} (threads : nat) : pool T -> list T -> Prop :=
| pe_new : pool_execution threads (new_pool threads) []
| pe_enqueue p submitted t busy p' : pool_execution threads p submitted -> Forall (fun c => c = false) (stopped p) ->
    enqueue p t busy = Ret p' -> pool_execution threads p' (submitted ++ [t])
| pe_stop p submitted k : pool_execution threads p submitted -> pool_execution threads (stop p k) submitted
| pe_work p submitted i success p' : pool_execution threads p submitted -> work p i success = Some p' -> pool_execution threads p' submitted.
(** The task a worker holds. *)
Definition running {T} (w : worker T) : list T := match w with Running t => [t] | _ => [] end.
(** The pool is being destroyed: all queues are closed. *)
Definition destroyed {T} (p : pool T) : Prop := Forall (fun c => c = true) (stopped p).
Definition all_finished {T} (p : pool T) : Prop := Forall (fun w => w = Finished) (workers p).
(** A schedule of worker actions. *)
Fixpoint run_workers {T} (p : pool T) (l : list (nat * bool)) : option (pool T) :=
  match l with [] => Some p | (i, b) :: l' => match work p i b with Some p' => run_workers p' l' | None => None end end.
