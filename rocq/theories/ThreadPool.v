(** Model of /repo/esl/computation/thread_pool.hpp as a transition system of its workers, the threads
    that submit tasks and the destructor.  Operations on the queues are atomic (they hold the lock of
    the queue, see BlockingQueue.v); a [try_] operation may fail because the lock is taken.  Tasks
    are abstract: running one has no effect on the pool (a task that throws ends the program; a task
    that enqueues tasks is covered as a submission by another thread, see PoolTasks_spec.v). *)
From Verif Require Import Base BlockingQueue.

Section ThreadPool.
Context {T : Type}.
(** thread_pool.hpp:78-93: the state of one worker: in the loop over queues at the n-th attempt; in
    the blocking [pop] of its own queue; running a task; finished. *)
Inductive worker := Searching (n : nat) | Blocked | Running (t : T) | Finished.
(** Lines 46-56: the queues, which of them are closed, the workers, [index_]; and a log of the
    tasks that have run. *)
Record pool := mk_pool { queues : list (list T); stopped : list bool; workers : list worker; next : Z; executed : list T }.
(** Lines 66-98 for at least one thread.  (With no thread the vector of queues is empty and the
    member [threads] is zero, whatever the local variable is set to.) *)
Definition new_pool (threads : nat) : pool := mk_pool (repeat [] threads) (repeat false threads) (repeat (Searching 0) threads) 0 [].
(** Lines 66-98 in full; [hardware]: what [std::thread::hardware_concurrency] returns.  The parameter [threads] hides the member: lines 70-76
    change the parameter, which bounds the loop starting workers (lines 95-97), while the queues (line 67) and the member (line 68), which
    workers use (lines 81-82), have the number asked for. *)
Definition construct (threads hardware : nat) : pool :=
  mk_pool (repeat [] threads) (repeat false threads)
    (repeat (Searching 0) (if Nat.eqb threads 0 then (if Nat.eqb hardware 0 then 1 else hardware) else threads)) 0 [].
Definition size (p : pool) : nat := length (queues p).
(** [(unsigned int)(threads * load_factor)] with [load_factor = 2.] (line 62). *)
Definition attempts (p : pool) : nat := 2 * size p.
(** Lines 131-139, 169-178: which queue receives the task; [busy n] tells whether the lock of the
    n-th queue tried is taken.  [threads] = 0 divides by zero: see [enqueue]. *)
Fixpoint target_from (fuel n : nat) (i : Z) (threads : Z) (busy : nat -> bool) : nat :=
  match fuel with
  | O => Z.to_nat (i mod threads)
  | S fuel' => if busy n then target_from fuel' (S n) i threads busy else Z.to_nat (w32 (i + Z.of_nat n) mod threads)
  end.
Definition target (p : pool) (busy : nat -> bool) : nat := target_from (attempts p) 0 (next p) (Z.of_nat (size p)) busy.
Definition enqueue (p : pool) (t : T) (busy : nat -> bool) : outcome pool :=
  if Nat.eqb (size p) 0 then UB
  else
    let k := target p busy in
    Ret (mk_pool (update (queues p) k (nth k (queues p) [] ++ [t])) (stopped p) (workers p) (w32 (next p + 1)) (executed p)).
(** Lines 105-107: the destructor closes the queues, one after the other. *)
Definition stop (p : pool) (k : nat) : pool := mk_pool (queues p) (update (stopped p) k true) (workers p) (next p) (executed p).
(** One action of worker [i] (lines 78-93); [success]: whether an attempted lock was free.  [None]: the
    worker is asleep on its queue, finished, or does not exist. *)
Definition work (p : pool) (i : nat) (success : bool) : option pool :=
  match nth_error (workers p) i with
  | None => None
  | Some w =>
      let goes qs w' ex := Some (mk_pool qs (stopped p) (update (workers p) i w') (next p) ex) in
      match w with
      | Searching n =>
          if Nat.ltb n (attempts p)
          then let k := ((i + n) mod size p)%nat in
               match nth k (queues p) [], success with
               | t :: rest, true => goes (update (queues p) k rest) (Running t) (executed p)
               | _, _ => goes (queues p) (Searching (S n)) (executed p)
               end
          else goes (queues p) Blocked (executed p)
      | Blocked =>
          match nth i (queues p) [] with
          | t :: rest => goes (update (queues p) i rest) (Running t) (executed p)
          | [] => if nth i (stopped p) false then goes (queues p) Finished (executed p) else None
          end
      | Running t => goes (queues p) (Searching 0) (executed p ++ [t])
      | Finished => None
      end
  end.
(** Line 87: worker [i] pops from [queues_[i]], outside the vector if there are not so many queues; undefined behaviour. *)
Definition oversteps (p : pool) (i : nat) : bool :=
  match nth_error (workers p) i with Some Blocked => Nat.leb (size p) i | _ => false end.
End ThreadPool.
Arguments pool : clear implicits.
Arguments worker : clear implicits.
