(** Specification for the times at which messages are handled. *)
From Verif Require Import Base Identity IdMap Multimap_spec Communicator Simulation.

Section Spec.
Context {St : Type} (shuffle : seed -> list message -> list message).
(** Each agent is woken no later than the delivery of any message in its inbox (an agent that is not scheduled acts at once). *)
Definition punctual (w : world St) : Prop := forall i a k m t, im_find i (agents w) = Some a -> In (k, m) (ag_inbox a) ->
  im_find i (wake_up_times w) = Some t -> t <= k.
(** An agent that never asks to sleep beyond the delivery of a message that it already has. *)
Definition attentive (a : agent St) : Prop := forall inbox own lower upper s o t,
  handle shuffle (mk_agent (ag_comm a) (ag_act a) inbox own) lower upper s = Ret (o, t) -> forall k m, In (k, m) inbox -> lower < k -> t <= k.
Definition all_attentive (w : world St) : Prop := forall i a, im_find i (agents w) = Some a -> attentive a.
End Spec.
