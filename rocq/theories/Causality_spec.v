(** Specification for simulations that agree until some time. *)
From Verif Require Import Base Identity IdMap Multimap_spec Communicator Communicator_spec Simulation.

Section Spec.
Context {St : Type} (hash : identity -> Z) (shuffle : seed -> list message -> list message) (T : Z).
(** Times that are the same as far as they lie before [T]. *)
Definition same_until (x y : option Z) : Prop :=
  match x, y with
  | Some t1, Some t2 => Z.min t1 T = Z.min t2 T
  | None, None => True
  | _, _ => False
  end.
(** Agents that do the same before [T], in simulations that end at [end1] and [end2]. *)
Definition behave_alike (end1 end2 : Z) (a1 a2 : agent St) : Prop :=
  forall inbox own lower s, lower < T ->
    match handle shuffle (mk_agent (ag_comm a1) (ag_act a1) inbox own) lower end1 s, handle shuffle (mk_agent (ag_comm a2) (ag_act a2) inbox own) lower end2 s with
    | Ret (o1, t1), Ret (o2, t2) => o1 = o2 /\ Z.min t1 T = Z.min t2 T
    | Throw, Throw => True
    | UB, UB => True
    | _, _ => False
    end.
Definition agents_alike (end1 end2 : Z) (x y : option (agent St)) : Prop :=
  match x, y with
  | Some a1, Some a2 => ag_inbox a1 = ag_inbox a2 /\ ag_own a1 = ag_own a2 /\ behave_alike end1 end2 a1 a2
  | None, None => True
  | _, _ => False
  end.
(** Worlds with the same agents in the same states that go on alike until [T]. *)
Definition alike (w1 w2 : world St) : Prop :=
  w_sample w1 = w_sample w2 /\ T <= w_end w1 /\ T <= w_end w2 /\
  forall i, agents_alike (w_end w1) (w_end w2) (im_find i (agents w1)) (im_find i (agents w2)) /\
    same_until (im_find i (wake_up_times w1)) (im_find i (wake_up_times w2)).
(** From time [lower] the simulation steps at the times [ts], all before [T], to a world whose next event [t] is at [T] or later. *)
Inductive reaches : Z -> world St -> list Z -> world St -> Z -> Prop :=
| reaches_here lower w : T <= lower -> reaches lower w [] w lower
| reaches_step lower w fuel w1 t ts w' t' : lower < T -> step hash shuffle fuel lower (w_end w) w = Some (Ret (w1, t)) -> reaches t w1 ts w' t' ->
    reaches lower w (lower :: ts) w' t'.
(** The same world with another end. *)
Definition until (e : Z) (w : world St) : world St := mk_world (agents w) (wake_up_times w) e (w_sample w).
(** The end of the simulation, which [act] and callbacks are given, does not influence what the agent does; it only caps the times that it returns. *)
Definition cap (t : option Z) (upper : Z) : Z := match t with Some t => Z.min upper t | None => upper end.
Definition ignores_end (a : agent St) : Prop :=
  (exists b rs c, registers (new_communicator b) rs c /\ (ag_comm a = c \/ ag_comm a = lock c) /\
     Forall (fun r => forall m lower s o, exists t o', (forall u, t = Some u -> lower <= u) /\ forall upper, r_callback r m lower upper s o = (o', cap t upper)) rs) /\
  (forall lower s o, exists o' t, forall upper, fst (ag_act a lower upper s o) = o' /\ Z.min upper (snd (ag_act a lower upper s o)) = cap t upper).
(** What can be seen of the agent [i]: its mail, its state and its outbox. *)
Definition seen (w : world St) (i : identity) : option (list (Z * message) * own) := option_map (fun a => (ag_inbox a, ag_own a)) (im_find i (agents w)).
End Spec.
