(** Maps from identities: the keys ascend. *)
From Verif Require Import Base Identity IdMap.

Definition im_sorted {V} (m : idmap V) : Prop := StronglySorted (fun x y => id_ltb (fst x) (fst y) = true) m.
