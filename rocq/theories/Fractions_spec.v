(** Rounding and allocation, in rational numbers. *)
From Coq Require Import QArith Qround Qabs Reals.
From Verif Require Import Base.
Local Open Scope Q_scope.

Definition Qsum (l : list Q) : Q := fold_right Qplus 0 l.
(** The nearest integer, upwards from the middle. *)
Definition nearest (f : Q) : Z := Qfloor (f + (1 # 2)).
(** Halfway between an even integer and the next. *)
Definition half_above_even (f : Q) : Prop := exists z, f == inject_Z (2 * z) + (1 # 2).
(** Less than one away. *)
Definition close (r : Z) (f : Q) : Prop := Qabs (inject_Z r - f) < 1.
(** The product of real numbers. *)
Definition Rprod (l : list R) : R := fold_right Rmult R1 l.
