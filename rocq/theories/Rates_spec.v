From Coq Require Import SpecFloat.
From Verif Require Import Base StaticTicks.

(** A fraction has the value [a / b]. *)
Definition worth (r : Z * Z) (a b : Z) : Prop := 0 < snd r /\ fst r * b = a * snd r.
(** Written without common factors. *)
Definition reduced (r : Z * Z) : Prop := 0 < snd r /\ Z.gcd (fst r) (snd r) = 1.
(** The double closest to [a / b]. *)
Definition decimal (a b : Z) : spec_float := div double (of_Z double a) (of_Z double b).
