(** Specification for simulations whose agents make no use of the seeds that they are given. *)
From Verif Require Import Base Identity IdMap Communicator Communicator_spec Simulation.

Section Spec.
Context {St : Type}.
(** The same world simulated under another sample number. *)
Definition with_sample (s : Z) (w : world St) : world St := mk_world (agents w) (wake_up_times w) (w_end w) s.
(** [act] and all callbacks ignore the seed. *)
Definition ignores_seed (a : agent St) : Prop :=
  (exists b rs c, registers (new_communicator b) rs c /\ (ag_comm a = c \/ ag_comm a = lock c) /\
     Forall (fun r => forall m lower upper s1 s2 o, r_callback r m lower upper s1 o = r_callback r m lower upper s2 o) rs) /\
  (forall lower upper s1 s2 o, ag_act a lower upper s1 o = ag_act a lower upper s2 o).
(** Messages are handled in order, not shuffled. *)
Definition in_order (a : agent St) : Prop := random (ag_comm a) = false.
(** What an agent does is the same under both ways of shuffling and all seeds. *)
Definition unaffected (shuffle1 shuffle2 : seed -> list message -> list message) (a : agent St) : Prop :=
  forall inbox own lower upper s1 s2,
    handle shuffle1 (mk_agent (ag_comm a) (ag_act a) inbox own) lower upper s1 = handle shuffle2 (mk_agent (ag_comm a) (ag_act a) inbox own) lower upper s2.
(** The result of a run, apart from the sample number. *)
Definition relabel (s : Z) (r : option (outcome (world St * list Z))) : option (outcome (world St * list Z)) :=
  match r with
  | Some (Ret (w, ts)) => Some (Ret (with_sample s w, ts))
  | r => r
  end.
End Spec.
