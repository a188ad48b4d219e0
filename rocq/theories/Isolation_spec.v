(** Specification for groups of agents that do not communicate with the rest of a simulation. *)
From Verif Require Import Base Identity IdMap Multimap_spec Communicator Communicator_spec Simulation.

Section Spec.
Context {St : Type} (shuffle : seed -> list message -> list message).
(** The part of a world that belongs to a group of identities: its agents and their wake-up times, nothing else. *)
Definition only (group : identity -> bool) (w : world St) : world St :=
  mk_world (filter (fun x => group (fst x)) (agents w)) (filter (fun x => group (fst x)) (wake_up_times w)) (w_end w) (w_sample w).
(** All messages go to identities on the same side as [i]. *)
Definition same_side (group : identity -> bool) (i : identity) (ms : list message) : Prop := Forall (fun m => group (m_recipient m) = group i) ms.
(** Whatever it receives and however it changes, the agent sends messages only to its own side. *)
Definition stays_on_side (group : identity -> bool) (i : identity) (a : agent St) : Prop :=
  forall inbox own lower upper s o t, same_side group i (snd own) ->
    handle shuffle (mk_agent (ag_comm a) (ag_act a) inbox own) lower upper s = Ret (o, t) -> same_side group i (snd o).
(** No message crosses between the group and the rest. *)
Definition separate (group : identity -> bool) (w : world St) : Prop :=
  forall i a, im_find i (agents w) = Some a -> stays_on_side group i a /\ same_side group i (ag_outbox a).
(** The agent's registered callbacks and [act] add only messages to its own side. *)
Definition sends_to_side (group : identity -> bool) (i : identity) (a : agent St) : Prop :=
  (exists b rs c, registers (new_communicator b) rs c /\ (ag_comm a = c \/ ag_comm a = lock c) /\
     Forall (fun r => forall m lower upper s o, same_side group i (snd o) -> same_side group i (snd (fst (r_callback r m lower upper s o)))) rs) /\
  (forall lower upper s o, same_side group i (snd o) -> same_side group i (snd (fst (ag_act a lower upper s o)))).
(** [l1] is [l2] with some elements left out. *)
Inductive subsequence {T} : list T -> list T -> Prop :=
| sub_nil : subsequence [] []
| sub_skip x l1 l2 : subsequence l1 l2 -> subsequence l1 (x :: l2)
| sub_keep x l1 l2 : subsequence l1 l2 -> subsequence (x :: l1) (x :: l2).
End Spec.
