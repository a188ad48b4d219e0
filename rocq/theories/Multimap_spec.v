(** Order of keys in multimaps. *)
From Verif Require Import Base.

Definition key_le {V} (x y : Z * V) : Prop := fst x <= fst y.
