(** Specification for the samplers. *)
From Verif Require Import Base.

(** All combinations of indices below the densities. *)
Definition combination (densities indices : list Z) : Prop := Forall2 (fun d i => 0 <= i < d) densities indices.
Definition product (l : list Z) : Z := fold_right Z.mul 1 l.
(** Squared Euclidean distance, and that to the nearest of some points. *)
Definition squared_distance (p q : list Z) : Z := fold_right Z.add 0 (map (fun xy => (fst xy - snd xy) * (fst xy - snd xy)) (combine p q)).
Definition is_nearest (p : list Z) (points : list (list Z)) (d : Z) : Prop :=
  (exists q, In q points /\ d = squared_distance p q) /\ forall q, In q points -> d <= squared_distance p q.
(** The numbers 1 to [n]. *)
Definition one_to (n : nat) : list Z := map (fun j => Z.of_nat j + 1) (seq 0 n).
