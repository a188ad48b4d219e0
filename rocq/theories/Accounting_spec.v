From Verif Require Import Base Money.

(** The same code, that is all three letters. *)
Definition same_code (x y : currency) : Prop := c0 x = c0 y /\ c1 x = c1 y /\ c2 x = c2 y.

