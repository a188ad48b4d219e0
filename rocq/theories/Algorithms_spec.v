(** Specification for the algorithms. *)
From Verif Require Import Base Algorithms.
From Coq Require Import Floats.SpecFloat.

(** Grid points of a simplex in units of one division: [d] nonnegative coordinates that add up to [r]. *)
Definition grid_point (d : nat) (r : Z) (c : list Z) : Prop :=
  length c = d /\ Forall (fun x => 0 <= x) c /\ zsum c = r.
(** Ideal arithmetic, in units of one division. *)
Definition ideal_samples (d divisions : nat) (r : Z) : option (list (list Z)) :=
  sample_barycentric Z.of_nat Z.sub Z.gtb d divisions r.
(** IEEE double precision, by the specification of floating-point numbers of Coq's library. *)
Definition double_of_nat (n : nat) : spec_float := binary_normalize 53 1024 (Z.of_nat n) 0 false.
Definition double_samples (d divisions : nat) : option (list (list spec_float)) :=
  sample_barycentric (fun n => SFdiv 53 1024 (double_of_nat n) (double_of_nat divisions)) (SFsub 53 1024)
    (fun x y => SFltb y x) d divisions (double_of_nat 1).
