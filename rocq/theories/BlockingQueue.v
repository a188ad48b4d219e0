(** Model of /repo/esl/computation/blocking_queue.hpp as a transition system.  Every critical
    section (the code holding the mutex) is one atomic action of the thread that executes it;
    notifications happen after the mutex is released and are actions of their own.  The
    condition variable may wake threads spuriously. *)
From Verif Require Import Base.

Section BlockingQueue.
Context {A : Type}.
(** What a thread is doing with respect to the queue. *)
Inductive status :=
| Idle                    (* outside, or about to lock *)
| Notifying               (* pushed; [notify_one] still to be called *)
| NotifyingAll            (* closed; [notify_all] still to be called *)
| Waiting                 (* inside [variable_.wait] *)
| Woken.                  (* woken up, has to lock again *)
Record queue := mk_queue { items : list A; closed : bool; threads : list status }.
Definition new_queue (n : nat) : queue := mk_queue [] false (repeat Idle n).

Inductive action :=
| Push (v : A)            (* 77-100, 108-141: lock, push *)
| TryFails                (* 113-115, 134-136, 199-201, 221-223: lock is taken or nothing to pop *)
| NotifyOne (woken : option nat)
| Pop                     (* 150-180, 192-227: an element was there *)
| PopFalse                (* 159-161, 174-176: [pop] returns false *)
| Wait                    (* 156-158, 171-173 *)
| Spurious
| Close                   (* 233-240 *)
| NotifyAll.
Definition is_waiting (s : status) : bool := match s with Waiting => true | _ => false end.
Fixpoint update {X} (l : list X) (i : nat) (x : X) : list X :=
  match l, i with
  | [], _ => []
  | _ :: l', O => x :: l'
  | y :: l', S i' => y :: update l' i' x
  end.
Definition wake (s : status) : status := match s with Waiting => Woken | x => x end.
(** The queue after thread [i] performs an action, with the value it obtains; [None] if the action
    cannot happen in that state. *)
Definition act (q : queue) (i : nat) (a : action) : option (queue * option A) :=
  let goes items' closed' s := Some (mk_queue items' closed' (update (threads q) i s), None) in
  match nth_error (threads q) i with
  | None => None
  | Some s =>
      match a, s with
      | Push v, Idle => goes (items q ++ [v]) (closed q) Notifying
      | TryFails, Idle => Some (q, None)
      | NotifyOne None, Notifying => if existsb is_waiting (threads q) then None else goes (items q) (closed q) Idle
      | NotifyOne (Some j), Notifying =>
          match nth_error (threads q) j with
          | Some Waiting => Some (mk_queue (items q) (closed q) (update (update (threads q) i Idle) j Woken), None)
          | _ => None
          end
      | Pop, Idle | Pop, Woken =>
          match items q with
          | v :: rest => Some (mk_queue rest (closed q) (update (threads q) i Idle), Some v)
          | [] => None
          end
      | PopFalse, Idle | PopFalse, Woken =>
          match items q with [] => if closed q then goes [] true Idle else None | _ => None end
      | Wait, Idle | Wait, Woken =>
          match items q with [] => if closed q then None else goes [] false Waiting | _ => None end
      | Spurious, Waiting => goes (items q) (closed q) Woken
      | Close, Idle => goes (items q) true NotifyingAll
      | NotifyAll, NotifyingAll => Some (mk_queue (items q) (closed q) (update (map wake (threads q)) i Idle), None)
      | _, _ => None
      end
  end.
End BlockingQueue.
Arguments queue : clear implicits.
Arguments action : clear implicits.
