(** Specification of intervals as sets of integers. *)
From Verif Require Import Base.

(** Membership as a mathematician would write it. *)
Definition in_interval (lc rc : bool) (lower upper t : Z) : Prop :=
  (if lc then lower <= t else lower < t) /\ (if rc then t <= upper else t < upper).
Definition no_element (lc rc : bool) (lower upper : Z) : Prop :=
  forall t, ~ in_interval lc rc lower upper t.
Definition one_element (lc rc : bool) (lower upper : Z) : Prop :=
  exists t, in_interval lc rc lower upper t /\
            forall t', in_interval lc rc lower upper t' -> t' = t.
Definition at_most_one_element (lc rc : bool) (lower upper : Z) : Prop :=
  forall t t', in_interval lc rc lower upper t -> in_interval lc rc lower upper t' -> t = t'.
