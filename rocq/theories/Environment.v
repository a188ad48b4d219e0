(** Model of the bookkeeping of activations in /repo/esl/computation/environment.cpp and of
    [environment::step]; with /repo/esl/simulation/agent_collection.cpp:40-45. *)
From Verif Require Import Base Identity IdMap Communicator Simulation.

(** A [std::vector]: its elements and its capacity. *)
Record vector (A : Type) := mk_vector { elements : list A; capacity : Z }.
Arguments mk_vector {A}. Arguments elements {A}. Arguments capacity {A}.
Definition empty_vector {A} : vector A := mk_vector [] 0.
Definition size {A} (v : vector A) : Z := Z.of_nat (length (elements v)).
(** [push_back] with the library's growth policy [grow] (new capacity from old size). *)
Definition push_back {A} (grow : Z -> Z) (v : vector A) (x : A) : vector A :=
  mk_vector (elements v ++ [x]) (if size v =? capacity v then grow (size v) else capacity v).

Section Activation.
Context (grow : Z -> Z).
(** environment.cpp:173-176 [activate_agent], called by agent_collection.cpp:40-45 for every agent
    created. *)
Definition activate_agent (v : vector identity) (i : identity) : vector identity := push_back grow v i.
(** environment.cpp:60-69 [activate]: a range-based loop over the vector it appends to.  A
    reallocation invalidates the iterators of the loop, whose next use is undefined.  (By the letter
    of the standard appending without reallocation already invalidates the end iterator; it is
    modelled as implementations behave, where the end iterator keeps denoting the old end.) *)
Fixpoint activate_loop (todo : list identity) (v : vector identity) (result : Z) : outcome (vector identity * Z) :=
  match todo with
  | [] => Ret (v, result)
  | i :: todo' => if size v =? capacity v then UB else activate_loop todo' (activate_agent v i) (result + 1)
  end.
Definition activate (v : vector identity) : outcome (vector identity * Z) :=
  match activate_loop (elements v) v 0 with
  | Ret (v', n) => Ret (mk_vector [] (capacity v'), n)
  | Throw => Throw
  | UB => UB
  end.
(** environment.cpp:74-82 [deactivate]: the same loop over the other vector, which is not cleared. *)
Definition deactivate (v : vector identity) : outcome (vector identity * Z) := activate_loop (elements v) v 0.
(** The agents created before [run], from an empty environment. *)
Definition after_creating (ids : list identity) : vector identity := fold_left activate_agent ids empty_vector.
End Activation.

(** *** environment.cpp:188-198 [step]: the model's [time] is a field that is read, not written
    (activations left out). *)
Section EnvironmentStep.
Context {St : Type} (hash : identity -> Z) (shuffle : seed -> list message -> list message).
Definition env_step (fuel : nat) (s : world St * Z) : option (outcome (world St * Z)) :=
  let '(w, time) := s in
  if time <? w_end w
  then match step hash shuffle fuel time (w_end w) w with
       | Some (Ret (w', _)) => Some (Ret (w', time))
       | Some Throw => Some Throw
       | Some UB => Some UB
       | None => None
       end
  else Some (Ret (w, time)).
End EnvironmentStep.
