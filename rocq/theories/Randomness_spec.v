(** Specifications of random draws. *)
From Coq Require Import QArith.
From Verif Require Import Base.
Local Open Scope Q_scope.

Fixpoint factorial (n : nat) : Q := match n with O => 1 | S m => inject_Z (Z.of_nat n) * factorial m end.
Fixpoint power (x : Q) (n : nat) : Q := match n with O => 1 | S m => x * power x m end.
(** The probability of [n] for a Poisson distribution with mean [lambda], given that it is not zero; [e] is exp(-lambda). *)
Definition mass (lambda e : Q) (n : nat) : Q := e * power lambda n / factorial n / (1 - e).
(** The sum of [f] over 1, ..., n. *)
Fixpoint upto (f : nat -> Q) (n : nat) : Q := match n with O => 0 | S m => upto f m + f n end.
(** The probability of at most [n]. *)
Definition at_most (lambda e : Q) : nat -> Q := upto (mass lambda e).
(** What the probability should be multiplied with: [n] for [n]. *)
Definition weighted (lambda e : Q) : nat -> Q := upto (fun n => inject_Z (Z.of_nat n) * mass lambda e n).
(** The inverse of the distribution function: [n] for the draw [u]. *)
Definition inverse (lambda e u : Q) (n : nat) : Prop := at_most lambda e (n - 1) < u <= at_most lambda e n.
