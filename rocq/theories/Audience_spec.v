(** Specification: who wants market data. *)
From Verif Require Import Base Identity BinaryBook Exchange.

(** In the history, [a] has asked for data on [sym], and has not cancelled that since. *)
Definition wants (h : list (Z * event)) (sym : Z) (a : identity) : Prop :=
  exists h1 t type depth instruments h2, h = h1 ++ (t, Request a type depth instruments) :: h2 /\ type <> CancelData /\ In sym instruments /\
  forall t' depth' instruments', In (t', Request a CancelData depth' instruments') h2 -> ~ In sym instruments'.
