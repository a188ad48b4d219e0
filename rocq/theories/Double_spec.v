(** Double precision numbers and the real numbers that they stand for. *)
From Coq Require Import SpecFloat Reals.
From Flocq Require Import Core IEEE754.BinarySingleNaN.
Local Open Scope R_scope.

Notation b64 := (binary_float 53 1024).
(** [x] stands for the real number [r]. *)
Definition stands (x : spec_float) (r : R) : Prop := exists b : b64, B2SF b = x /\ is_finite b = true /\ B2R b = r.
