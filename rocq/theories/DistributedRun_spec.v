(** Specification of distributed runs. *)
From Verif Require Import Base Identity IdMap Communicator Simulation Simulation_spec Distributed.

(** Processes only ever add to the list of agents they deactivated, and there are as many as before. *)
Definition keeps_deactivated {A} (steps : Z -> cluster A -> outcome (cluster A * list Z)) : Prop :=
  forall t c c' ts, steps t c = Ret (c', ts) -> length c' = length c /\ forall r n n', nth_error c r = Some n -> nth_error c' r = Some n' -> (length (deactivated n) <= length (deactivated n'))%nat.
(** The address book of the process is right. *)
Definition informed {St} (here : identity -> bool) (w : world St) : Prop := forall i, here i = true <-> local w i.
(** Every message sent reaches an agent that is awake by the time it is delivered, without being woken up. *)
Definition expected {St} (w : world St) : Prop := forall m, In m (sent w) -> exists t, im_find (m_recipient m) (wake_up_times w) = Some t /\ t <= m_received m.
