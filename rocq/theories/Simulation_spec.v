(** Specifications of delivery, rounds, steps and runs. *)
From Verif Require Import Base Identity IdMap IdMap_spec Multimap Multimap_spec Communicator Simulation.

Section Spec.
Context {St : Type}.
Implicit Types (w : world St).
(** Maps are sorted by identity and inboxes by delivery time (which the containers ensure). *)
Definition well_formed w : Prop :=
  im_sorted (agents w) /\ im_sorted (wake_up_times w) /\
  Forall (fun x => StronglySorted key_le (ag_inbox (snd x))) (agents w).
(** All messages waiting to be sent: outboxes in the order of the agents. *)
Definition sent w : list message := concat (map (fun x => ag_outbox (snd x)) (agents w)).
Definition addressed_to (i : identity) (m : message) : bool := id_eqb (m_recipient m) i.
Definition local w (i : identity) : Prop := im_find i (agents w) <> None.
(** Earliest of an optional time and some times. *)
Definition earlier (o : option Z) (t : Z) : option Z := Some match o with Some x => Z.min x t | None => t end.
Definition wake_up_after (o : option Z) (ms : list message) : option Z := fold_left (fun o m => earlier o (m_received m)) ms o.
(** An agent is due when it wakes up now or was never scheduled. *)
Definition is_due w (lower : Z) (i : identity) : Prop :=
  local w i /\ (im_find i (wake_up_times w) = Some lower \/ im_find i (wake_up_times w) = None).
(** Nothing remains to be done at or before [lower]. *)
Definition quiet w (lower : Z) : Prop := lower < w_end w /\ forall i t, im_find i (wake_up_times w) = Some t -> lower < t.
(** [t] is the earliest of the end and of all wake-up times. *)
Definition is_next_event w (t : Z) : Prop :=
  (t = w_end w \/ exists i, im_find i (wake_up_times w) = Some t) /\ t <= w_end w /\
  forall i x, im_find i (wake_up_times w) = Some x -> t <= x.
(** Every acting agent returns normally, asks to be woken later, and sends only to local agents for
    later delivery; no message is waiting in another agent's outbox. *)
Context (hash : identity -> Z) (shuffle : seed -> list message -> list message).
Definition produces_future (lower upper n : Z) w : Prop :=
  (forall i a, is_due w lower i -> im_find i (agents w) = Some a ->
     exists o t, handle shuffle a lower upper (seed_of hash i lower n (w_sample w)) = Ret (o, t) /\ lower < t /\
       Forall (fun m => lower < m_received m /\ local w (m_recipient m)) (snd o)) /\
  (forall i a, ~ is_due w lower i -> im_find i (agents w) = Some a -> ag_outbox a = []).
(** Past or foreign wake-up times, and a present at or after the end, are never resolved. *)
Definition stuck w (lower : Z) : Prop :=
  w_end w <= lower \/ exists i t, im_find i (wake_up_times w) = Some t /\ (t < lower \/ (t <= lower /\ ~ local w i)).
(** The times at which a run steps: each one is the next event of the world the step before left. *)
Inductive visited : world St -> list Z -> world St -> Prop :=
| visited_last w lower fuel w' t : step hash shuffle fuel lower (w_end w) w = Some (Ret (w', t)) -> t = w_end w -> visited w [lower] w'
| visited_more w lower fuel w1 t ts w' : step hash shuffle fuel lower (w_end w) w = Some (Ret (w1, t)) -> is_next_event w1 t -> t < w_end w ->
    visited w1 (t :: ts) w' -> visited w (lower :: t :: ts) w'.
End Spec.
