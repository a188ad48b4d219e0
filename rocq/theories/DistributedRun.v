(** Model of a run in the distributed environment -
    /repo/esl/computation/distributed/mpi_environment.cpp:326-373 and 437-522, with
    /repo/esl/simulation/model.cpp:90-255.
    Collective operations of MPI involve all processes and are one step of the cluster, as in
    Distributed.v.  Migrations after a step (426-431) belong to the step of the cluster. *)
From Verif Require Import Base IdMap Multimap Identity Communicator Simulation Distributed.

Section Run.
Context {A : Type}.
(** The steps of all processes at a time, up to [finish]: the cluster and the time each process
    returns.  [finish] is [simulation.end]; it is the same in all processes. *)
Context (steps : Z -> cluster A -> outcome (cluster A * list Z)) (finish : Z).
(** [boost::mpi::reduce] with [boost::mpi::minimum] to process 0 and [broadcast] from it
    (lines 466-478): all processes obtain the least of the values.  There is at least one. *)
Definition least (ts : list Z) : Z := match ts with [] => 0 | t :: ts' => fold_left Z.min ts' t end.
(** Lines 447-520 [run] from the time [lower] on, with the times of the steps.  The loop steps, takes
    the minimum of the times, leaves if it is the end, informs about agents activated and
    deactivated, and steps again at the new time; that step's result is not used (517).  The upper
    bound of the interval stays the end (474-478).  Output and the count of agents (485-515) are
    left out.  [None]: not finished within the given number of iterations. *)
Fixpoint run (fuel : nat) (lower : Z) (c : cluster A) : option (outcome (cluster A * list Z)) :=
  match fuel with
  | O => None
  | S fuel' =>
      if lower <? finish then
        match steps lower c with
        | Ret (c1, nexts) =>
            let next := least nexts in
            if next >=? finish then Some (Ret (c1, [lower]))
            else
              match activate c1 with
              | Ret xs =>
                  match deactivate (map fst xs) with
                  | Ret ys =>
                      match steps next (map fst ys) with
                      | Ret (c2, _) =>
                          match run fuel' next c2 with
                          | Some (Ret (c3, ts)) => Some (Ret (c3, lower :: next :: ts))
                          | r => r
                          end
                      | Throw => Some Throw
                      | UB => Some UB
                      end
                  | Throw => Some Throw
                  | UB => Some UB
                  end
              | Throw => Some Throw
              | UB => Some UB
              end
        | Throw => Some Throw
        | UB => Some UB
        end
      else Some (Ret (c, []))
  end.
End Run.

Section Round.
Context {St : Type} (hash : identity -> Z) (shuffle : seed -> list message -> list message).
(** Whether the address book of the process says that an agent is in this process. *)
Context (here : identity -> bool).
Implicit Types (w : world St).
(** Lines 335-347, one message.  To another process it is queued, and lost (C102); wake-up times do
    not change.  The entry that [agent_locations_[...]] makes for unknown recipients is left out. *)
Definition mpi_deliver w (m : message) : outcome (world St) :=
  if here (m_recipient m) then
    match im_find (m_recipient m) (agents w) with
    | None => UB
    | Some r => Ret (mk_world (im_set (m_recipient m) (with_inbox r (mm_insert (m_received m) m (ag_inbox r))) (agents w)) (wake_up_times w) (w_end w) (w_sample w))
    end
  else Ret w.
Fixpoint mpi_deliver_all w (ms : list message) : outcome (world St) :=
  match ms with
  | [] => Ret w
  | m :: ms' => match mpi_deliver w m with Ret w' => mpi_deliver_all w' ms' | Throw => Throw | UB => UB end
  end.
(** Lines 333-349: one agent. *)
Definition mpi_send_from w (i : identity) : outcome (world St) :=
  match im_find i (agents w) with
  | None => UB
  | Some a =>
      match mpi_deliver_all w (ag_outbox a) with
      | Ret w1 =>
          match im_find i (agents w1) with
          | None => UB
          | Some a1 => Ret (mk_world (im_set i (with_own a1 (fst (ag_own a1), [])) (agents w1)) (wake_up_times w1) (w_end w1) (w_sample w1))
          end
      | Throw => Throw
      | UB => UB
      end
  end.
Fixpoint mpi_send_all w (ids : list identity) : outcome (world St) :=
  match ids with
  | [] => Ret w
  | i :: ids' => match mpi_send_from w i with Ret w' => mpi_send_all w' ids' | Throw => Throw | UB => UB end
  end.
(** model.cpp:102-247 with this environment: [send_messages] returns 0 (line 372), so the next event
    is not determined again. *)
Definition mpi_round (lower upper n : Z) w : outcome (world St * Z) :=
  match act_phase hash shuffle lower upper n w with
  | Ret p => match mpi_send_all (p_world p) (map fst (agents (p_world p))) with Ret w' => Ret (w', p_first p) | Throw => Throw | UB => UB end
  | Throw => Throw
  | UB => UB
  end.
End Round.
