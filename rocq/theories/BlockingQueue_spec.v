(** Executions of a blocking queue by any number of threads under any schedule. *)
From Verif Require Import Base BlockingQueue.

Section Spec.
Context {A : Type}.
Definition pushes (a : action A) : list A := match a with Push v => [v] | _ => [] end.
Definition obtains (o : option A) : list A := match o with Some v => [v] | None => [] end.
(** The queue, the values pushed and the values popped so far, in order. *)
Inductive execution (n : nat) : queue A -> list A -> list A -> Prop :=
| ex_new : execution n (new_queue n) [] []
| ex_act q pushed popped i a q' o : execution n q pushed popped -> act q i a = Some (q', o) ->
    execution n q' (pushed ++ pushes a) (popped ++ obtains o).
(** The queue after the actions of threads, in order. *)
Inductive history (n : nat) : queue A -> list (nat * action A) -> Prop :=
| hi_new : history n (new_queue n) []
| hi_act q l i a q' o : history n q l -> act q i a = Some (q', o) -> history n q' (l ++ [(i, a)]).
Definition some_thread (q : queue A) (s : status) : Prop := exists i, nth_error (threads q) i = Some s.
End Spec.
