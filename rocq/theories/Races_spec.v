(** Specification of rounds with several threads in which agents create agents. *)
From Verif Require Import Base Identity Races.

(** Two threads access the same memory, one of them writes, and they do not both hold the lock: undefined by the C++ standard. *)
Definition data_race (threads : list (list access)) : Prop :=
  exists k l a b, k <> l /\ In a (nth k threads []) /\ In b (nth l threads []) /\ c_location a = c_location b /\ (c_writes a || c_writes b) = true /\ (c_locked a && c_locked b) = false.
(** Two agents of different threads create. *)
Definition creators_apart (creates : identity -> list identity) (chunks : list (list identity)) : Prop :=
  exists k l i j, k <> l /\ In i (nth k chunks []) /\ In j (nth l chunks []) /\ creates i <> [] /\ creates j <> [].
(** No entity gets children from two threads. *)
Definition own_parents (programs : list (list identity)) : Prop :=
  forall k l q, In q (nth k programs []) -> In q (nth l programs []) -> k = l.
Definition count_of (q : identity) (l : list identity) : nat := length (filter (id_eqb q) l).
