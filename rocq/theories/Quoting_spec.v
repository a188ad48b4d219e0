(** Specification for the market making rule: what its arguments may be. *)
From Coq Require Import SpecFloat.
From Verif Require Import Base StaticTicks.

(** A double; one that is a number. *)
Definition a_double (x : spec_float) : Prop := valid_binary 53 1024 x = true.
Definition a_number (x : spec_float) : Prop := a_double x /\ exists s m e, x = S754_zero s \/ x = S754_finite s m e.
Definition at_most (x y : spec_float) : Prop := SFleb x y = true.
Definition less (x y : spec_float) : Prop := SFltb x y = true.
Definition zero : spec_float := S754_zero false.
Definition unit : spec_float := of_Z double 1.
Definition positive (x : spec_float) : Prop := a_number x /\ less zero x.
(** A time within the session: from 0 to 1. *)
Definition in_session (x : spec_float) : Prop := a_number x /\ at_most zero x /\ at_most x unit.
(** What is needed of the logarithm: it gives doubles, is not negative from 1 on, and 0 at 1. *)
Definition logarithm (f : spec_float -> spec_float) : Prop :=
  (forall x, a_double x -> a_double (f x)) /\
  (forall x, at_most unit x -> at_most zero (f x)) /\
  f unit = zero.
(** A parameter from 1/256 to 256. *)
Definition moderate (x : spec_float) : Prop := a_number x /\ at_most (div double (of_Z double 1) (of_Z double 256)) x /\ at_most x (of_Z double 256).
