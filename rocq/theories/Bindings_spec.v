(** Specifications for the Python interface. *)
From Coq Require Import String SpecFloat.
From Verif Require Import Base Text Identity IdMap Money Codes Outputs Communicator Simulation Bindings.
Local Open Scope Z_scope.

(** [pat] is somewhere in [s]. *)
Definition occurs (pat s : list Z) : Prop := exists a b, s = a ++ pat ++ b.
(** The number that a Python value is. *)
Definition number (v : pyvalue) : option (Z + spec_float) :=
  match v with
  | PFloat x | PNumpyFloat x => Some (inr x)
  | PInt n | PNumpySigned n | PNumpyUnsigned n => Some (inl n)
  | PPrice _ | POther => None
  end.
(** Values that a constant can hold. *)
Definition fits_constant (v : pyvalue) : Prop :=
  match v with
  | PFloat _ | PNumpyFloat _ | PPrice _ => True
  | PInt n | PNumpySigned n => - 2 ^ 63 <= n < 2 ^ 63
  | PNumpyUnsigned n => 0 <= n < 2 ^ 64
  | POther => False
  end.
(** The parameter of that name is an unsigned number of 64 bits. *)
Definition unsigned (name : String.string) (m : pvalues) (n : Z) : Prop := im_find (codes name) m = Some (CUint64 n).
(** A method that returns nothing and sends nothing. *)
Definition silent {St} (f : py_action (St:=St)) : Prop :=
  forall lower upper s o, snd (f lower upper s o) = None /\ snd (fst (f lower upper s o)) = snd o.
(** The number under a key of an answer, when it converts. *)
Definition answers (to_double : Z -> outcome spec_float) (answer : list (pykey * pynumber)) (i : identity) (x : spec_float) : Prop :=
  In (KProperty i, NDouble x) answer \/ exists n, In (KProperty i, NInt n) answer /\ to_double n = Ret x.
