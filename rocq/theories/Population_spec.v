(** Specifications for agents that are added and removed. *)
From Verif Require Import Base Identity IdMap Multimap Communicator Simulation Simulation_spec Population.

Section Spec.
Context {St : Type}.
(** What removing an agent is expected to do: nothing of it is left. *)
Definition forget (w : world St) (i : identity) : world St := mk_world (im_erase i (agents w)) (im_erase i (wake_up_times w)) (w_end w) (w_sample w).
(** Two runs that call the model at the same times and leave the same agents, or fail alike. *)
Definition same_course (r1 r2 : option (outcome (world St * list Z))) : Prop :=
  match r1, r2 with
  | None, None | Some Throw, Some Throw | Some UB, Some UB => True
  | Some (Ret (w1, ts1)), Some (Ret (w2, ts2)) => agents w1 = agents w2 /\ ts1 = ts2
  | _, _ => False
  end.
(** A list of changes in which [i] is created, as [a], and not removed. *)
Definition creates (cs : list (change St)) (i : identity) (a : agent St) : Prop :=
  In (Create i a) cs /\ (forall b, In (Create i b) cs -> b = a) /\ ~ In (Remove i) cs.
(** How vectors of known libraries grow: from nothing to one, else to more and at most double. *)
Definition grows (grow : nat -> nat) : Prop := grow 0%nat = 1%nat /\ forall c, (1 <= c -> c < grow c <= 2 * c)%nat.
(** Nothing has been added or removed since the lists were read and cleared. *)
Definition still (s : sim St) : Prop := elements (s_activated s) = [] /\ elements (s_deactivated s) = [].
(** An agent with its outbox empty and these messages added to its inbox, in this order. *)
Definition with_letters (a : agent St) (ms : list message) : agent St :=
  mk_agent (ag_comm a) (ag_act a) (fold_left (fun b m => mm_insert (m_received m) m b) ms (ag_inbox a)) (fst (ag_own a), []).
End Spec.
