(** Specification: histories that differ only in how many levels of the book market data are asked for. *)
From Verif Require Import Base Identity BinaryBook Exchange.

Definition same_but_depth (a b : Z * event) : Prop :=
  a = b \/ exists t who type d d' instruments, a = (t, Request who type d instruments) /\ b = (t, Request who type d' instruments).
